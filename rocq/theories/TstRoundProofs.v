(** Lemmas: what is written is read back. *)
From Coq Require Import List Bool ZArith Ascii String Lia.
From Verif Require Import Py FileNumModel FileNumSpec FileNumProofs TstModel TstSpec TstProofs.
Import ListNotations.
Local Open Scope Z_scope.

(** ** Text *)
Lemma split_no c a : ~ In c a -> split c a = [a].
Proof.
  induction a as [|x a IH]; intro N; [reflexivity|]. cbn. destruct (Ascii.eqb_spec x c) as [->|]; [exfalso; apply N; now left|]. rewrite IH; [reflexivity|]. intro I. apply N. now right.
Qed.
Lemma split_at c a b : ~ In c a -> split c (a ++ [c] ++ b) = a :: split c b.
Proof.
  induction a as [|x a IH]; intro N; cbn.
  - now rewrite Ascii.eqb_refl.
  - destruct (Ascii.eqb_spec x c) as [->|]; [exfalso; apply N; now left|]. cbn in IH. rewrite IH; [reflexivity|]. intro I. apply N. now right.
Qed.
Lemma concat_split c s : List.concat (split c s) = filter (fun x => negb (Ascii.eqb x c)) s.
Proof.
  induction s as [|x s IH]; [reflexivity|]. cbn. destruct (Ascii.eqb x c); cbn; [exact IH|]. destruct (split_some c s) as (w & ws & E). rewrite E in *. cbn in *. now rewrite IH.
Qed.
Lemma filter_none c s : ~ In c s -> filter (fun x => negb (Ascii.eqb x c)) s = s.
Proof.
  induction s as [|x s IH]; intro N; [reflexivity|]. cbn. destruct (Ascii.eqb_spec x c) as [->|]; [exfalso; apply N; now left|]. cbn. rewrite IH; [reflexivity|]. intro I. apply N. now right.
Qed.
Lemma lstrip_pad c a t : Forall (eq c) a -> lstrip_char c (a ++ t) = lstrip_char c t.
Proof. induction 1 as [|x a <- F IH]; [reflexivity|]. cbn. now rewrite Ascii.eqb_refl. Qed.
Lemma lstrip_same c t : hd_error t <> Some c -> lstrip_char c t = t.
Proof. destruct t as [|x t]; [reflexivity|]. cbn. intro H. destruct (Ascii.eqb_spec x c) as [->|]; [easy|reflexivity]. Qed.
Lemma strip_pad c a t b : Forall (eq c) a -> Forall (eq c) b -> hd_error t <> Some c -> hd_error (rev t) <> Some c -> strip_char c (a ++ t ++ b) = t.
Proof.
  intros A B H1 H2. unfold strip_char. rewrite lstrip_pad by exact A. destruct t as [|x t].
  - cbn [app]. rewrite <- (app_nil_r b), lstrip_pad by exact B. reflexivity.
  - rewrite (lstrip_same c ((x :: t) ++ b)) by exact H1. rewrite rev_app_distr, lstrip_pad by now apply Forall_rev. rewrite lstrip_same by exact H2. apply rev_involutive.
Qed.
Lemma lstrip_stars c t : lstrip_char c t = [] <-> Forall (eq c) t.
Proof.
  induction t as [|x t IH]; cbn; [split; auto|]. destruct (Ascii.eqb_spec x c) as [->|N]; [rewrite IH; split; [now constructor|intro H; now inversion H]|]. split; [easy|]. intro H. inversion H; subst. easy.
Qed.
Lemma lstrip_split c t : exists p, Forall (eq c) p /\ t = p ++ lstrip_char c t.
Proof.
  induction t as [|x t (p & P & E)]; [exists []; split; [constructor|reflexivity]|]. cbn. destruct (Ascii.eqb_spec x c) as [->|]; [|exists []; split; [constructor|reflexivity]].
  exists (c :: p). split; [now constructor|]. cbn. now f_equal.
Qed.
Lemma strip_stars c t : strip_char c t = [] <-> Forall (eq c) t.
Proof.
  unfold strip_char. split.
  - intro H. apply (f_equal (@rev ascii)) in H. rewrite rev_involutive in H. cbn in H. apply lstrip_stars in H. apply Forall_rev in H. rewrite rev_involutive in H.
    destruct (lstrip_split c t) as (p & P & E). rewrite E. apply Forall_app. now split.
  - intro H. rewrite (proj2 (lstrip_stars c t) H). reflexivity.
Qed.
Lemma readline_at a b : ~ In newline a -> readline (a ++ [newline] ++ b) = (a ++ [newline], b).
Proof.
  induction a as [|x a IH]; intro N; [reflexivity|]. cbn [app readline]. destruct (Ascii.eqb_spec x newline) as [->|]; [exfalso; apply N; now left|].
  cbn [app] in IH. rewrite IH; [reflexivity|]. intro I. apply N. now right.
Qed.
Lemma field_digits z : 0 <= z -> Forall field_char (py_str z) /\ ~ In " "%char (py_str z).
Proof.
  intro P. destruct (py_str_written z P) as (ds & -> & F & _). split.
  - apply Forall_forall. intros x I. apply in_map_iff in I. destruct I as (d & <- & I). rewrite Forall_forall in F. specialize (F d I). revert d F I.
    apply (digit_cases (fun d => In d ds -> field_char (digit_char d))); intro; repeat split; vm_compute; congruence.
  - intro I. apply in_map_iff in I. destruct I as (d & E & I). rewrite Forall_forall in F. specialize (F d I). revert d F I E.
    apply (digit_cases (fun d => In d ds -> digit_char d = " "%char -> False)); intro; vm_compute; congruence.
Qed.
Lemma hd_in (c : ascii) t : hd_error t = Some c -> In c t.
Proof. destruct t; [discriminate|]. intro H. inversion H. now left. Qed.
Lemma in_spaces (c : ascii) a : spaces a -> In c a -> c = " "%char.
Proof. unfold spaces. rewrite Forall_forall. intros H I. symmetry. now apply H. Qed.

Section Reader.
Context {F : Type}.
Variable parse_float : text -> option F.
Variable trunc : F -> option Z.
Variable nonzero : F -> bool.
Variable unpack : text -> F.
Notation val := (@val F).

Lemma str_28 : txt "28" = py_str 28. Proof. reflexivity. Qed.
Lemma str_eqb i z : 0 <= i -> 0 <= z -> text_eqb (py_str i) (py_str z) = (i =? z).
Proof.
  intros I P. apply Bool.eq_iff_eq_true. rewrite text_eqb_iff, Z.eqb_eq. split; [now apply py_str_inj|now intros ->].
Qed.
Lemma is_line_fields l number name t (v : val) : is_line l number name t -> means parse_float number t v ->
  line_fields parse_float l = Good (number, if forallb (Ascii.eqb "*"%char) name then None else Some (lower name), v).
Proof.
  intros (a & b & c & d & e & g & eol & A & B & C & D & E & G & EOL & N0 & NF & TF & ->) M.
  destruct (field_digits number N0) as [DF DS]. destruct NF as (NC & N1 & N2). destruct TF as (TC & T1 & T2).
  assert (FI : forall c' s, Forall field_char s -> In c' s -> is_ascii c' /\ c' <> "#"%char /\ c' <> "$"%char /\ c' <> newline) by (intros c' s H; rewrite Forall_forall in H; apply H).
  assert (SP : forall c' s, spaces s -> In c' s -> c' <> "#"%char /\ c' <> "$"%char) by (intros c' s H I; apply (in_spaces _ _ H) in I; subst; split; discriminate).
  unfold line_fields.
  match goal with |- context [forallb ?p ?l] => replace (forallb p l) with true end.
  2:{ symmetry. apply forallb_forall. intros x I. apply N.ltb_lt. rewrite !in_app_iff in I. cbn [In] in I. rewrite Forall_forall in EOL.
      assert (SA : forall s, spaces s -> In x s -> (N_of_ascii x < 128)%N) by (intros s H J; apply (in_spaces _ _ H) in J; subst; reflexivity).
      assert (FA : forall s, Forall field_char s -> In x s -> (N_of_ascii x < 128)%N) by (intros s H J; apply (FI _ _ H J)).
      repeat (destruct I as [I|I]; [eauto|]); try (subst; reflexivity); try easy; try (apply EOL; exact I); destruct I as [I|I]; try easy; subst; reflexivity. }
  cbn [negb]. set (rest := c ++ name ++ d ++ ["$"%char] ++ e ++ t ++ g ++ ["$"%char] ++ eol ++ [newline]).
  replace (["#"%char] ++ a ++ py_str number ++ b ++ ["#"%char] ++ rest) with ([] ++ ["#"%char] ++ (a ++ py_str number ++ b) ++ ["#"%char] ++ rest) by (cbn [app]; now rewrite <- !app_assoc).
  rewrite split_at by (intros []). cbn [tl]. rewrite split_at.
  2:{ rewrite !in_app_iff. intros [I|[I|I]]; [now apply (SP _ _ A) in I|now apply (FI _ _ DF) in I|now apply (SP _ _ B) in I]. }
  rewrite concat_split. unfold rest. rewrite !filter_app.
  rewrite (filter_none _ c), (filter_none _ name), (filter_none _ d), (filter_none _ e), (filter_none _ t), (filter_none _ g);
    try (intro I; first [now apply (FI _ _ NC) in I|now apply (FI _ _ TC) in I|now apply (SP _ _ C) in I|now apply (SP _ _ D) in I|now apply (SP _ _ E) in I|now apply (SP _ _ G) in I]).
  change (filter (fun x => negb (Ascii.eqb x "#")) ["$"%char]) with ["$"%char].
  set (tail := filter _ eol ++ filter _ [newline]). replace (c ++ name ++ d ++ ["$"%char] ++ e ++ t ++ g ++ ["$"%char] ++ tail) with ((c ++ name ++ d) ++ ["$"%char] ++ (e ++ t ++ g) ++ ["$"%char] ++ tail) by now rewrite <- !app_assoc.
  rewrite split_at by (rewrite !in_app_iff; intros [I|[I|I]]; [now apply (SP _ _ C) in I|now apply (FI _ _ NC) in I|now apply (SP _ _ D) in I]).
  rewrite split_at by (rewrite !in_app_iff; intros [I|[I|I]]; [now apply (SP _ _ E) in I|now apply (FI _ _ TC) in I|now apply (SP _ _ G) in I]).
  cbv zeta. rewrite !strip_pad; try assumption.
  2:{ intro H. apply hd_in in H. easy. } 2:{ intro H. apply hd_in in H. apply in_rev in H. easy. }
  set (nm := match strip_char "*" name with [] => None | _ => _ end).
  assert (NM : nm = if forallb (Ascii.eqb "*"%char) name then None else Some (lower name)).
  { unfold nm. destruct (forallb (Ascii.eqb "*") name) eqn:FB.
    - assert (S0 : strip_char "*" name = []) by (apply strip_stars, Forall_forall; intros x I; rewrite forallb_forall in FB; apply Ascii.eqb_eq; now apply FB). now rewrite S0.
    - destruct (strip_char "*" name) eqn:S0; [|reflexivity]. apply strip_stars in S0. exfalso. apply Bool.not_true_iff_false in FB. apply FB. apply forallb_forall. intros x I.
      rewrite Forall_forall in S0. rewrite <- (S0 x I). reflexivity. }
  rewrite <- NM. clearbody nm. clear - N0 M. destruct M as (M1 & M2 & M3).
  assert (CH : checked (py_str number) nm (Some v) = Good (number, nm, v)) by (cbn [checked]; now rewrite py_int_str). destruct t as [|x t]; [subst v; exact CH|].
  cbn [existsb]. change (txt "28") with (py_str 28). change (txt "31") with (py_str 31). change (txt "33") with (py_str 33). change (txt "37") with (py_str 37). change (txt "38") with (py_str 38).
  rewrite !str_eqb by lia. destruct (Z.eqb_spec number 28) as [E1|E1].
  { destruct M1 as (z & Z0 & TZ & ->); [now left|]. cbn [orb]. rewrite TZ, py_int_str by exact Z0. exact CH. }
  destruct (Z.eqb_spec number 31) as [E2|E2].
  { destruct M1 as (z & Z0 & TZ & ->); [now right|]. cbn [orb]. rewrite TZ, py_int_str by exact Z0. exact CH. }
  cbn [orb]. destruct (Z.eqb_spec number 33) as [E3|E3]; [|destruct (Z.eqb_spec number 37) as [E4|E4]; [|destruct (Z.eqb_spec number 38) as [E5|E5]]]; cbn [orb].
  1-3: destruct M2 as (y & PY & ->); [discriminate|lia|]; rewrite PY; exact CH.
  assert (EV : v = VStr (x :: t)) by (apply M3; [discriminate|cbn; lia]). rewrite EV in *. exact CH.
Qed.
Lemma is_line_end l number name t : is_line l number name t -> exists l', l = l' ++ [newline] /\ ~ In newline l'.
Proof.
  intros (a & b & c & d & e & g & eol & A & B & C & D & E & G & EOL & N0 & NF & TF & ->). destruct (field_digits number N0) as [DF DS].
  exists (["#"%char] ++ a ++ py_str number ++ b ++ ["#"%char] ++ c ++ name ++ d ++ ["$"%char] ++ e ++ t ++ g ++ ["$"%char] ++ eol). split; [repeat rewrite <- app_assoc; cbn [app]; reflexivity|].
  assert (SA : forall s, spaces s -> In newline s -> False) by (intros s H J; apply (in_spaces _ _ H) in J; discriminate).
  assert (FA : forall s, Forall field_char s -> In newline s -> False) by (intros s H J; rewrite Forall_forall in H; apply H in J; destruct J as (_ & _ & _ & J); now apply J).
  rewrite !in_app_iff. cbn [In]. intro I. rewrite Forall_forall in EOL. destruct NF as [NC _]. destruct TF as [TC _].
  repeat (destruct I as [I|I]; [eauto; try (destruct I as [I|[]]; discriminate)|]). apply EOL in I. tauto.
Qed.
Lemma stars_forallb name : stars name <-> forallb (Ascii.eqb "*"%char) name = true.
Proof.
  unfold stars. rewrite forallb_forall, Forall_forall. split; intros H x I; [rewrite <- (H x I); reflexivity|]. apply Ascii.eqb_eq. now apply H.
Qed.

(** ** Reading *)
(** With enough iterations. *)
Definition runs_to {A} (p : parser A) (f : file) (x : A) (r : file) : Prop := exists N, forall n, (N <= n)%nat -> p n f = Good (x, r).
Lemma to_ret {A} (x : A) f : runs_to (ret x) f x f.
Proof. exists O. reflexivity. Qed.
Lemma to_then {A B} (p : parser A) (q : A -> parser B) f x f1 y f2 : runs_to p f x f1 -> runs_to (q x) f1 y f2 -> runs_to (andthen p q) f y f2.
Proof. intros [N1 H1] [N2 H2]. exists (Nat.max N1 N2). intros n L. rewrite (andthen_eq _ _ _ _ _ _ (H1 n ltac:(lia))). apply H2. lia. Qed.
Lemma to_enough {A} (p : parser A) f x r : tame p -> runs_to p f x r -> p (S (List.length f)) f = Good (x, r).
Proof.
  intros [P _ _] [N H]. rewrite <- (H (Nat.max N (S (List.length f)))) by lia. symmetry. apply (b_mono _ P); [lia|]. apply (b_ends _ P). lia.
Qed.
Lemma line_read l kv rest : entry_line parse_float l kv -> exists i, runs_to (split_line parse_float) (l ++ rest) (i, Some (fst kv), snd kv) rest.
Proof.
  intros (number & name & t & L & NS & K & M). exists number. exists O. intros n _. unfold split_line. destruct (is_line_end _ _ _ _ L) as (l' & E & N).
  replace (l ++ rest) with (l' ++ [newline] ++ rest) by (rewrite E; now rewrite <- app_assoc). rewrite readline_at, <- E by exact N. rewrite (is_line_fields _ _ _ _ _ L M).
  rewrite stars_forallb in NS. apply Bool.not_true_is_false in NS. now rewrite NS, K.
Qed.
Lemma star_read l rest : star_line parse_float l -> exists i v, runs_to (split_line parse_float) (l ++ rest) (i, None, v) rest.
Proof.
  intros (number & name & t & v & L & S & M). exists number, v. exists O. intros n _. unfold split_line. destruct (is_line_end _ _ _ _ L) as (l' & E & N).
  replace (l ++ rest) with (l' ++ [newline] ++ rest) by (rewrite E; now rewrite <- app_assoc). rewrite readline_at, <- E by exact N. rewrite (is_line_fields _ _ _ _ _ L M).
  rewrite stars_forallb in S. now rewrite S.
Qed.

(** ** Dictionaries *)
Lemma get_put {V} k k' (v : V) d : get k (put k' v d) = if key_eqb k k' then Some v else get k d.
Proof.
  induction d as [|[k0 v0] d IH]; cbn; [reflexivity|]. destruct (key_eqb k' k0) eqn:E; cbn.
  - apply key_eqb_iff in E. subst k0. destruct (key_eqb k k'); reflexivity.
  - destruct (key_eqb k k0) eqn:E0; [|exact IH]. apply key_eqb_iff in E0. subst k0. destruct (key_eqb k k') eqn:E1; [|reflexivity]. apply key_eqb_iff in E1. subst k'.
    rewrite (proj2 (key_eqb_iff k k) eq_refl) in E. discriminate.
Qed.
Definition puts {V} (wrap : val -> V) (d : list (key * V)) (kvs : list (text * val)) := fold_left (fun d kv => put (Some (fst kv)) (wrap (snd kv)) d) kvs d.
Lemma last_value_app k kvs : forall (o : option val), fold_left (fun o kv => if text_eqb (fst kv) k then Some (snd kv) else o) kvs o
  = match last_value k kvs with Some v => Some v | None => o end.
Proof.
  unfold last_value. induction kvs as [|kv kvs IH]; intro o; [reflexivity|]. cbn. rewrite IH, (IH (if text_eqb (fst kv) k then Some (snd kv) else None)). destruct (fold_left _ kvs None); [reflexivity|].
  destruct (text_eqb (fst kv) k); reflexivity.
Qed.
Lemma last_value_cons k (kv : text * val) kvs : last_value k (kv :: kvs) = match last_value k kvs with Some v => Some v | None => if text_eqb (fst kv) k then Some (snd kv) else None end.
Proof. unfold last_value at 1. cbn [fold_left]. apply last_value_app. Qed.
Lemma get_puts {V} (wrap : val -> V) kvs : forall k d, get (Some k) (puts wrap d kvs) = match last_value k kvs with Some v => Some (wrap v) | None => get (Some k) d end.
Proof.
  unfold puts. induction kvs as [|kv kvs IH]; intros k d; [reflexivity|]. cbn [fold_left]. rewrite IH, last_value_cons, get_put. destruct (last_value k kvs); [reflexivity|]. cbn [key_eqb].
  destruct (text_eqb (fst kv) k) eqn:E.
  - apply text_eqb_iff in E. rewrite (proj2 (text_eqb_iff k (fst kv)) (eq_sym E)). reflexivity.
  - destruct (text_eqb k (fst kv)) eqn:E2; [|reflexivity]. apply text_eqb_iff in E2. rewrite (proj2 (text_eqb_iff (fst kv) k) (eq_sym E2)) in E. discriminate.
Qed.
Lemma same_puts {V} (wrap : val -> V) kvs : same_entries kvs wrap (puts wrap [] kvs).
Proof. intro k. rewrite get_puts. destruct (last_value k kvs); reflexivity. Qed.
Lemma puts_app {V} (wrap : val -> V) d a b : puts wrap (puts wrap d a) b = puts wrap d (a ++ b).
Proof. unfold puts. now rewrite fold_left_app. Qed.

(** ** Blocks *)
Lemma entries_read b kvs rest d : block parse_float b kvs -> runs_to (entries parse_float d) (b ++ rest) (puts (fun v => v) d kvs) rest.
Proof.
  intros (ls & s & (ll & FL & ->) & ST & ->).
  assert (G : exists N, forall fuel n, (N <= fuel)%nat -> (N <= n)%nat -> entries_loop parse_float fuel d n ((List.concat ll ++ s) ++ rest) = Good (puts (fun v => v) d kvs, rest)).
  { revert d. induction FL as [|l kv ll kvs L FL IH]; intro d.
    - destruct (star_read s rest ST) as (i & v & N & H). exists (Nat.max 1 N). intros [|fuel] n L1 L2; [lia|]. cbn [entries_loop List.concat app]. rewrite (andthen_eq _ _ _ _ _ _ (H n ltac:(lia))). reflexivity.
    - destruct (IH (put (Some (fst kv)) (snd kv) d)) as [N1 H1]. destruct (line_read l kv ((List.concat ll ++ s) ++ rest) L) as (i & N2 & H2).
      exists (S (Nat.max N1 N2)). intros [|fuel] n L1 L2; [lia|]. cbn [entries_loop List.concat]. rewrite <- !app_assoc. rewrite <- app_assoc in H2. rewrite (andthen_eq _ _ _ _ _ _ (H2 n ltac:(lia))).
      rewrite app_assoc. apply H1; lia. }
  destruct G as [N H]. exists N. intros n L. apply H; lia.
Qed.
Lemma text_ne k s : ~ named (F := F) s k -> key_eqb (Some (fst k)) (Some (txt s)) = false.
Proof. intro N. apply Bool.not_true_is_false. intro E. apply key_eqb_iff in E. apply N. unfold named. congruence. Qed.
Lemma channel_read b kvs rest : channel_text parse_float b kvs -> runs_to (read_channel parse_float) (b ++ rest) (puts (fun v => v) [] kvs) rest.
Proof.
  intros ((ll & FL & ->) & kvs' & v & -> & NT). unfold read_channel. generalize (@nil (key * val)) as d.
  assert (G : forall d, exists N, forall fuel n, (N <= fuel)%nat -> (N <= n)%nat -> channel_loop parse_float fuel d n (List.concat ll ++ rest) = Good (puts (fun v => v) d (kvs' ++ [(txt "type", v)]), rest)).
  { revert ll FL. induction NT as [|kv kvs' NT1 NT IH]; intros ll FL d.
    - inversion FL as [|l kv' ll' kvs2 L FL2 X1 X2]; subst. inversion FL2; subst. destruct (line_read l _ rest L) as (i & N & H). exists (S N). intros [|fuel] n L1 L2; [lia|].
      cbn [channel_loop List.concat]. rewrite app_nil_r. rewrite (andthen_eq _ _ _ _ _ _ (H n ltac:(lia))). cbn [fst snd]. rewrite (proj2 (key_eqb_iff _ _) eq_refl). reflexivity.
    - inversion FL as [|l kv' ll' kvs2 L FL2 X1 X2]; subst. destruct (IH ll' FL2 (put (Some (fst kv)) (snd kv) d)) as [N1 H1]. destruct (line_read l _ (List.concat ll' ++ rest) L) as (i & N2 & H2).
      exists (S (Nat.max N1 N2)). intros [|fuel] n L1 L2; [lia|]. cbn [channel_loop List.concat]. rewrite <- app_assoc. rewrite (andthen_eq _ _ _ _ _ _ (H2 n ltac:(lia))). cbv zeta. rewrite text_ne by exact NT1. apply H1; lia. }
  intro d. destruct (G d) as [N H]. exists N. intros n L. apply H; lia.
Qed.
Lemma repeat_read {X A} (part : text -> X -> Prop) (p : parser A) (R : X -> A -> Prop) : (forall b x rest, part b x -> exists a, runs_to p (b ++ rest) a rest /\ R x a) ->
  forall xs b rest, all_text part b xs -> exists ys, runs_to (repeat_p (List.length xs) p) (b ++ rest) ys rest /\ Forall2 R xs ys.
Proof.
  intros P xs b rest (bs & FB & ->). induction FB as [|b x bs xs B FB IH]; [exists []; split; [apply to_ret|constructor]|]. destruct IH as (ys & IH & RY).
  destruct (P b x (List.concat bs ++ rest) B) as (y & PY & RX). exists (y :: ys). split; [|now constructor]. cbn [List.length repeat_p List.concat]. rewrite <- app_assoc.
  eapply to_then; [exact PY|]. eapply to_then; [exact IH|]. apply to_ret.
Qed.
Lemma to_item {V} k (d : list (key * V)) v f : get (Some (txt k)) d = Some v -> runs_to (item k d) f v f.
Proof. intro H. unfold item. rewrite H. apply to_ret. Qed.

(** ** The metadata of the file *)
Lemma header_entries kvs : Forall (fun kv => ~ named "channelsarray" kv /\ ~ named "channels" kv) kvs ->
  forall ll d rest x r, Forall2 (entry_line parse_float) ll kvs ->
  (exists N, forall fuel n, (N <= fuel)%nat -> (N <= n)%nat -> header_loop parse_float fuel (puts Plain d kvs) n rest = Good (x, r)) ->
  exists N, forall fuel n, (N <= fuel)%nat -> (N <= n)%nat -> header_loop parse_float fuel d n (List.concat ll ++ rest) = Good (x, r).
Proof.
  induction 1 as [|kv kvs [N1 N2] NK IH]; intros ll d rest x r FL H.
  - inversion FL; subst. exact H.
  - inversion FL as [|l kv' ll' kvs2 L FL2 X1 X2]; subst. destruct (IH ll' (put (Some (fst kv)) (Plain (snd kv)) d) rest x r FL2 H) as [N3 H3]. destruct (line_read l kv (List.concat ll' ++ rest) L) as (i & N4 & H4).
    exists (S (Nat.max N3 N4)). intros [|fuel] n L1 L2; [lia|]. rewrite header_loop_eq. cbn [List.concat]. rewrite <- app_assoc. rewrite (andthen_eq _ _ _ _ _ _ (H4 n ltac:(lia))).
    unfold header_next. rewrite text_ne by exact N1. apply H3; lia.
Qed.
Lemma header_stars s d rest : star_line parse_float s -> exists N, forall fuel n, (N <= fuel)%nat -> (N <= n)%nat -> header_loop parse_float fuel d n (s ++ rest) = Good (d, rest).
Proof.
  intro S0. destruct (star_read s rest S0) as (i & v & N & H). exists (S N). intros [|fuel] n L1 L2; [lia|]. rewrite header_loop_eq, (andthen_eq _ _ _ _ _ _ (H n ltac:(lia))). reflexivity.
Qed.
Lemma last_value_append k (a b : list (text * val)) : last_value k (a ++ b) = match last_value k b with Some v => Some v | None => last_value k a end :> option val.
Proof. unfold last_value at 1. rewrite fold_left_app. apply last_value_app. Qed.
Lemma last_value_none k (kvs : list (text * val)) : Forall (fun kv => fst kv <> k) kvs -> last_value k kvs = None :> option val.
Proof. induction 1 as [|kv kvs N _ IH]; [reflexivity|]. rewrite last_value_cons, IH. destruct (text_eqb (fst kv) k) eqn:E; [|reflexivity]. now apply text_eqb_iff in E. Qed.
Lemma header_read (f : a_file) b1 b2 b3 b4 rest :
  entry_lines parse_float b1 (f_before f) -> entry_line parse_float b2 (txt "channelsarray", VInt (Z.of_nat (List.length (f_channels f)))) ->
  all_text (channel_text parse_float) b3 (f_channels f) -> block parse_float b4 (f_after f) ->
  Forall (fun kv => ~ named "channelsarray" kv /\ ~ named "channels" kv) (f_before f ++ f_after f) ->
  exists hd ds, runs_to (fun n => header_loop parse_float n [] n) (b1 ++ b2 ++ b3 ++ b4 ++ rest) hd rest /\
    (forall k, k <> txt "channels" -> get (Some k) hd = option_map Plain (last_value k (f_all f))) /\
    get (Some (txt "channels")) hd = Some (Channels ds) /\ Forall2 (fun kvs d => same_entries kvs (fun v => v) d) (f_channels f) ds.
Proof.
  intros (l1 & F1 & ->) L2 C3 (ls & s & (l4 & F4 & ->) & S4 & ->) NK. apply Forall_app in NK. destruct NK as [NB NA].
  destruct (repeat_read (channel_text parse_float) (read_channel parse_float) (fun kvs d => same_entries kvs (fun v => v) d)) with (xs := f_channels f) (b := b3) (rest := (List.concat l4 ++ s) ++ rest) as (ds & R3 & FD).
  { intros b kvs rest' CT. exists (puts (fun v => v) [] kvs). split; [apply channel_read; exact CT|]. apply same_puts. } { exact C3. }
  set (cv := VInt (Z.of_nat (List.length (f_channels f))) : val) in *.
  set (d1 := puts Plain [] (f_before f)). set (d2 := put (Some (txt "channels")) (Channels ds) (put (Some (txt "channelsarray")) (Plain cv) d1)).
  exists (puts Plain d2 (f_after f)), ds. split; [|split; [|split; [|exact FD]]].
  - assert (G : exists N, forall fuel n, (N <= fuel)%nat -> (N <= n)%nat -> header_loop parse_float fuel [] n (List.concat l1 ++ b2 ++ b3 ++ (List.concat l4 ++ s) ++ rest) = Good (puts Plain d2 (f_after f), rest)).
    { apply (header_entries _ NB l1); [exact F1|]. fold d1.
      destruct (header_entries _ NA l4 d2 (s ++ rest) (puts Plain d2 (f_after f)) rest F4) as [N5 H5]; [now apply header_stars|].
      destruct (line_read b2 _ (b3 ++ (List.concat l4 ++ s) ++ rest) L2) as (i & N6 & H6). destruct R3 as [N7 H7].
      exists (S (Nat.max N5 (Nat.max N6 N7))). intros [|fuel] n K1 K2; [lia|]. rewrite header_loop_eq, (andthen_eq _ _ _ _ _ _ (H6 n ltac:(lia))). cbn [fst snd]. unfold header_next.
      rewrite (proj2 (key_eqb_iff _ _) eq_refl). unfold cv at 1. cbn [times_of]. rewrite Nat2Z.id. erewrite andthen_eq by reflexivity. rewrite (andthen_eq _ _ _ _ _ _ (H7 n ltac:(lia))).
      fold d2. rewrite <- app_assoc. apply H5; lia. }
    destruct G as [N H]. exists N. intros n L. apply H; lia.
  - intros k NK. rewrite get_puts. unfold f_all. rewrite last_value_append. fold cv. rewrite last_value_cons. destruct (last_value k (f_after f)) eqn:E; [reflexivity|].
    unfold d2. rewrite !get_put. cbn [key_eqb fst snd]. destruct (text_eqb k (txt "channels")) eqn:E1; [now apply text_eqb_iff in E1|].
    destruct (text_eqb (txt "channelsarray") k) eqn:E2.
    + apply text_eqb_iff in E2. rewrite <- E2. rewrite (proj2 (text_eqb_iff _ _) eq_refl). reflexivity.
    + destruct (text_eqb k (txt "channelsarray")) eqn:E3. { apply text_eqb_iff in E3. rewrite E3, (proj2 (text_eqb_iff _ _) eq_refl) in E2. discriminate. }
      unfold d1. rewrite get_puts. destruct (last_value k (f_before f)); reflexivity.
  - rewrite get_puts. rewrite last_value_none. { unfold d2. rewrite get_put, (proj2 (key_eqb_iff _ _) eq_refl). reflexivity. }
    eapply Forall_impl; [|exact NA]. intros kv [_ N]. exact N.
Qed.

(** ** Samples *)
Definition column (j : nat) (rows : list (list text)) : list F := map (fun row => unpack (nth j row [])) rows.
Lemma get_append k x (d : @data F) : forall k', get k' (append k x d) = if key_eqb k k' then option_map (fun l => l ++ [x]) (get k' d) else get k' d.
Proof.
  intro k'. induction d as [|[k0 l] d IH]; cbn; [destruct (key_eqb k k'); reflexivity|]. destruct (key_eqb k k0) eqn:E; cbn [fst snd get].
  - apply key_eqb_iff in E. subst k0. destruct (key_eqb k' k) eqn:E2.
    + apply key_eqb_iff in E2. subst k'. now rewrite (proj2 (key_eqb_iff k k) eq_refl).
    + exact IH.
  - destruct (key_eqb k' k0) eqn:E2; [|exact IH]. apply key_eqb_iff in E2. subst k0. now rewrite E.
Qed.
Lemma read_eight x rest n : List.length x = 8%nat -> read_value unpack (VInt 8) n (x ++ rest) = Good (unpack x, rest).
Proof.
  intro L. unfold read_value, read. change (8 <? 0) with false. cbv iota. change (Z.to_nat 8) with 8%nat. rewrite firstn_app, skipn_app, (firstn_all2 x), (skipn_all2 x) by lia. rewrite L. change (8 - 8)%nat with 0%nat.
  rewrite firstn_O, app_nil_r, L. reflexivity.
Qed.
Lemma sample_read names : NoDup names -> forall row d rest, List.length row = List.length names -> Forall (fun x => List.length x = 8%nat) row ->
  exists d', runs_to (read_sample unpack (map (fun nm => (Some nm, VInt 8)) names) d) (List.concat row ++ rest) d' rest /\
    (forall j nm, nth_error names j = Some nm -> get (Some nm) d' = option_map (fun l => l ++ [unpack (nth j row [])]) (get (Some nm) d)) /\
    (forall nm, ~ In nm names -> get (Some nm) d' = get (Some nm) d).
Proof.
  induction names as [|nm names IH]; intros ND row d rest L8 F8.
  - destruct row; [|discriminate]. exists d. split; [apply to_ret|]. split; [intros [|] ?; discriminate|reflexivity].
  - destruct row as [|x row]; [discriminate|]. inversion ND as [|? ? NI ND']; subst. inversion F8; subst. cbn in L8.
    destruct (IH ND' row (append (Some nm) (unpack x) d) rest) as (d' & RD & IN & OUT); [lia|assumption|]. exists d'. split; [|split].
    + cbn [map read_sample List.concat]. rewrite <- app_assoc. eapply to_then; [|exact RD]. exists O. intros n _. now apply read_eight.
    + intros [|j] nm' E.
      * cbn in E. inversion E; subst nm'. rewrite OUT by exact NI. rewrite get_append, (proj2 (key_eqb_iff _ _) eq_refl). reflexivity.
      * cbn in E. rewrite (IN j nm' E). rewrite get_append. destruct (key_eqb (Some nm) (Some nm')) eqn:E2; [|reflexivity]. apply key_eqb_iff in E2. inversion E2; subst. apply nth_error_In in E. easy.
    + intros nm' N. rewrite OUT by (intro I; apply N; now right). rewrite get_append. destruct (key_eqb (Some nm) (Some nm')) eqn:E2; [|reflexivity]. apply key_eqb_iff in E2. inversion E2; subst. exfalso. apply N. now left.
Qed.
Lemma samples_read names : NoDup names -> forall rows b d rest, all_text sample_text b rows ->
  Forall (fun row => List.length row = List.length names /\ Forall (fun x => List.length x = 8%nat) row) rows ->
  exists d', runs_to (read_samples unpack (List.length rows) (map (fun nm => (Some nm, VInt 8)) names) d) (b ++ rest) d' rest /\
    (forall j nm, nth_error names j = Some nm -> get (Some nm) d' = option_map (fun l => l ++ column j rows) (get (Some nm) d)).
Proof.
  intros ND rows b d rest (bs & FB & ->). revert d. induction FB as [|b row bs rows [c ->] FB IH]; intros d FR.
  - exists d. split; [apply to_ret|]. intros j nm _. destruct (get (Some nm) d); cbn; [now rewrite app_nil_r|reflexivity].
  - inversion FR as [|? ? [L8 F8] FR']; subst. destruct (sample_read names ND row d ([c] ++ List.concat bs ++ rest) L8 F8) as (d1 & R1 & IN1 & _). destruct (IH d1 FR') as (d2 & R2 & IN2).
    exists d2. split.
    + cbn [List.length read_samples List.concat]. rewrite <- !app_assoc. eapply to_then; [exact R1|]. eapply to_then; [|exact R2]. exists O. intros n _. reflexivity.
    + intros j nm E. rewrite (IN2 j nm E), (IN1 j nm E). destruct (get (Some nm) d); cbn; [|reflexivity]. now rewrite <- app_assoc.
Qed.
Lemma get_fresh (names : list text) : forall (d : @data F) nm, In nm names \/ get (Some nm) d = Some [] -> get (Some nm) (fold_left (fun d name => put name [] d) (map Some names) d) = Some [].
Proof.
  induction names as [|n0 names IH]; intros d nm H; [destruct H as [[]|H]; exact H|]. cbn. apply IH. rewrite get_put.
  destruct (key_eqb (Some nm) (Some n0)) eqn:E; [now right|]. destruct H as [[->|H]|H]; [|now left|now right]. rewrite (proj2 (key_eqb_iff _ _) eq_refl) in E. discriminate.
Qed.
Lemma items_read (k : string) (g : list (text * val) -> val -> Prop) chans (ds : list (@dict F)) f : Forall2 (fun kvs d => same_entries kvs (fun v => v) d) chans ds ->
  forall vs, Forall2 (fun kvs v => last_value (txt k) kvs = Some v) chans vs -> runs_to (all_items k ds) f vs f.
Proof.
  induction 1 as [|kvs d chans ds SE FD IH]; intros vs FV; inversion FV; subst; [apply to_ret|]. cbn [all_items]. eapply to_then.
  - apply to_item. rewrite (SE (txt k)), H1. reflexivity.
  - eapply to_then; [apply IH; eassumption|]. apply to_ret.
Qed.
Lemma keys_read (names : list text) f : runs_to (keys_of (map (fun nm => VStr nm : val) names)) f (map Some names) f.
Proof. induction names as [|n names IH]; [apply to_ret|]. cbn [map keys_of]. eapply to_then; [exact IH|]. apply to_ret. Qed.
Lemma combine_const (names : list text) (v : val) : combine (map Some names) (map (fun _ => v) names) = map (fun nm => (Some nm, v)) names.
Proof. induction names as [|n names IH]; [reflexivity|]. cbn. now rewrite IH. Qed.
Lemma data_read names chans ds (hd : @hdict F) (sd : @dict F) sv rows b rest :
  Forall2 (fun name kvs => last_value (txt "name") kvs = Some (VStr name : val) /\ last_value (txt "lengthinbytes") kvs = Some (VInt 8)) names chans -> NoDup names ->
  get (Some (txt "channels")) hd = Some (Channels ds) -> Forall2 (fun kvs d => same_entries kvs (fun v => v) d) chans ds ->
  get (Some (txt "samples")) sd = Some sv -> (exists z, runs_to (int_of trunc sv) (b ++ rest) z (b ++ rest) /\ Z.to_nat z = List.length rows) -> all_text sample_text b rows ->
  Forall (fun row => List.length row = List.length chans /\ Forall (fun x => List.length x = 8%nat) row) rows ->
  exists d, runs_to (read_data trunc unpack hd sd) (b ++ rest) d rest /\ right_data unpack names rows (Some d).
Proof.
  intros NC ND GC FD GS (z & RZ & EZ) B FR. assert (LN : List.length names = List.length chans) by (clear - NC; induction NC; cbn; congruence).
  destruct (samples_read names ND rows b (fold_left (fun d name => put name [] d) (map Some names) []) rest B) as (d & RD & IN); [now rewrite LN|].
  exists d. split.
  - unfold read_data. eapply to_then; [apply to_item; exact GC|]. eapply to_then; [apply to_item; exact GS|]. cbv beta iota.
    eapply to_then; [apply (items_read "lengthinbytes" (fun _ _ => True) chans ds _ FD (map (fun _ => VInt 8) names)); clear - NC; induction NC as [|? ? ? ? [? ?]]; constructor; auto|].
    eapply to_then; [apply (items_read "name" (fun _ _ => True) chans ds _ FD (map (fun nm => VStr nm) names)); clear - NC; induction NC as [|? ? ? ? [? ?]]; constructor; auto|].
    eapply to_then; [apply keys_read|]. eapply to_then; [exact RZ|]. rewrite EZ, combine_const. exact RD.
  - intros j nm E. rewrite (IN j nm E), get_fresh by (left; eapply nth_error_In; exact E). reflexivity.
Qed.

(** ** Steps, runs, files *)
Lemma step_read names chans ds (hd : @hdict F) b s rest :
  Forall2 (fun name kvs => last_value (txt "name") kvs = Some (VStr name : val) /\ last_value (txt "lengthinbytes") kvs = Some (VInt 8)) names chans -> NoDup names ->
  get (Some (txt "channels")) hd = Some (Channels ds) -> Forall2 (fun kvs d => same_entries kvs (fun v => v) d) chans ds ->
  step_text parse_float b s -> step_right trunc nonzero (List.length chans) s ->
  exists st, runs_to (read_step parse_float trunc nonzero unpack hd) (b ++ rest) st rest /\ right_step unpack names s st.
Proof.
  intros NC ND GC FD (b0 & b1 & b2 & b3 & b4 & S0 & L1 & B2 & B3 & B4 & ->) ((sv & SV & CV) & FR). rewrite <- !app_assoc.
  set (md := puts (fun v => v) [(Some (txt "test"), s_test s)] (s_first s ++ s_second s)).
  assert (SM : same_entries (s_all s) (fun v => v) md). { intro k. unfold md. rewrite get_puts. unfold s_all. rewrite last_value_cons. destruct (last_value k _); [reflexivity|]. cbn [get key_eqb fst snd].
    destruct (text_eqb k (txt "test")) eqn:E; destruct (text_eqb (txt "test") k) eqn:E2; try reflexivity; [apply text_eqb_iff in E; subst; rewrite (proj2 (text_eqb_iff _ _) eq_refl) in E2; discriminate
    |apply text_eqb_iff in E2; subst; rewrite (proj2 (text_eqb_iff _ _) eq_refl) in E; discriminate]. }
  assert (GS : get (Some (txt "samples")) md = Some sv) by (rewrite (SM (txt "samples")), SV; reflexivity).
  assert (INT : truth nonzero sv = true -> exists z, runs_to (int_of trunc sv) (b4 ++ rest) z (b4 ++ rest) /\ Z.to_nat z = List.length (s_samples s)).
  { destruct sv as [|t|z|x]; cbn in CV |- *; intro T; [discriminate| | |].
    - exists (Z.of_nat (List.length (s_samples s))). rewrite CV, py_int_str by lia. split; [apply to_ret|lia].
    - exists z. split; [apply to_ret|lia].
    - destruct CV as [CV _]. exists (Z.of_nat (List.length (s_samples s))). rewrite CV. split; [apply to_ret|lia]. }
  assert (FALSE : truth nonzero sv = false -> s_samples s = []).
  { intro T. assert (List.length (s_samples s) = 0%nat); [|destruct (s_samples s); [reflexivity|discriminate]]. destruct sv as [|t|z|x]; cbn in CV, T.
    - exact CV.
    - subst t. destruct (py_str _) eqn:E; [|discriminate]. pose proof (py_int_str (Z.of_nat (List.length (s_samples s))) ltac:(lia)) as X. rewrite E in X. discriminate.
    - subst z. destruct (Z.eqb_spec (Z.of_nat (List.length (s_samples s))) 0); [lia|discriminate].
    - now apply CV. }
  assert (LAST : exists st, runs_to (do samples <- item "samples" md; if truth nonzero samples then do d <- read_data trunc unpack hd md; ret {| step_metadata := md; step_data := Some d |}
      else ret {| step_metadata := md; step_data := None |}) (b4 ++ rest) st rest /\ right_step unpack names s st).
  { destruct (truth nonzero sv) eqn:T.
    - destruct (data_read names chans ds hd md sv (s_samples s) b4 rest NC ND GC FD GS (INT eq_refl) B4 FR) as (d & RD & OK). eexists. split.
      + eapply to_then; [apply to_item; exact GS|]. cbv beta. rewrite T. eapply to_then; [exact RD|]. apply to_ret.
      + split; [exact SM|exact OK].
    - specialize (FALSE eq_refl). rewrite FALSE in B4. destruct B4 as (bs & FB & ->). inversion FB; subst. eexists. split.
      + eapply to_then; [apply to_item; exact GS|]. cbv beta. rewrite T. apply to_ret.
      + split; [exact SM|exact FALSE]. }
  destruct LAST as (st & RS & OK). exists st. split; [|exact OK]. unfold read_step.
  assert (TAIL : forall v, v = s_test s -> runs_to (do metadata <- entries parse_float [(Some (txt "test"), v)]; do metadata <- entries parse_float metadata; do samples <- item "samples" metadata;
      if truth nonzero samples then do d <- read_data trunc unpack hd metadata; ret {| step_metadata := metadata; step_data := Some d |} else ret {| step_metadata := metadata; step_data := None |})
      (b2 ++ b3 ++ b4 ++ rest) st rest).
  { intros v ->. eapply to_then; [apply entries_read; exact B2|]. eapply to_then; [apply entries_read; exact B3|]. rewrite puts_app. exact RS. }
  destruct (line_read b1 _ (b2 ++ b3 ++ b4 ++ rest) L1) as (i & R1). destruct S0 as [->|S0].
  - cbn [app]. eapply to_then; [exact R1|]. cbn [fst snd]. cbv beta iota. eapply to_then; [apply to_ret|]. cbv beta iota. rewrite (proj2 (key_eqb_iff _ _) eq_refl). cbn [negb]. now apply TAIL.
  - destruct (star_read b0 (b1 ++ b2 ++ b3 ++ b4 ++ rest) S0) as (i0 & v0 & R0). eapply to_then; [exact R0|]. cbv beta iota. eapply to_then; [eapply to_then; [exact R1|]; apply to_ret|].
    cbn [fst snd]. cbv beta iota. rewrite (proj2 (key_eqb_iff _ _) eq_refl). cbn [negb]. now apply TAIL.
Qed.
Lemma run_read names chans ds (hd : @hdict F) b r rest :
  Forall2 (fun name kvs => last_value (txt "name") kvs = Some (VStr name : val) /\ last_value (txt "lengthinbytes") kvs = Some (VInt 8)) names chans -> NoDup names ->
  get (Some (txt "channels")) hd = Some (Channels ds) -> Forall2 (fun kvs d => same_entries kvs (fun v => v) d) chans ds ->
  run_text parse_float b r -> get (Some (txt "steps")) hd = Some (Plain (VInt (Z.of_nat (List.length (r_steps r))))) ->
  Forall (step_right trunc nonzero (List.length chans)) (r_steps r) ->
  exists rn, runs_to (read_run parse_float trunc nonzero unpack hd) (b ++ rest) rn rest /\ right_run unpack names r rn.
Proof.
  intros NC ND GC FD (b1 & b2 & b3 & b4 & L1 & NL & B3 & B4 & ->) GS FR. rewrite <- !app_assoc.
  destruct (repeat_read (fun b s => step_text parse_float b s /\ step_right trunc nonzero (List.length chans) s) (read_step parse_float trunc nonzero unpack hd) (right_step unpack names)) with (xs := r_steps r) (b := b4) (rest := rest) as (sts & RS & OK).
  { intros b s rest' [ST SR]. now apply (step_read names chans ds). }
  { destruct B4 as (bs & FB & ->). exists bs. split; [|reflexivity]. clear - FB FR. induction FB; [constructor|]. inversion FR; subst. constructor; auto. }
  destruct (line_read b1 _ (b2 ++ [newline] ++ b3 ++ b4 ++ rest) L1) as (i & R1). eexists. split.
  - unfold read_run. eapply to_then; [exact R1|]. cbn [fst snd]. cbv beta iota. rewrite (proj2 (key_eqb_iff _ _) eq_refl). cbn [negb].
    eapply to_then; [exists O; intros n _; unfold skip_line; rewrite readline_at by exact NL; reflexivity|]. eapply to_then; [apply entries_read; exact B3|].
    eapply to_then; [apply to_item; exact GS|]. cbn [times_of_h times_of]. rewrite Nat2Z.id. eapply to_then; [apply to_ret|]. eapply to_then; [exact RS|]. apply to_ret.
  - split; [|exact OK]. cbn [run_metadata]. intro k. rewrite get_puts. unfold r_all. rewrite last_value_cons. destruct (last_value k _); [reflexivity|]. cbn [get key_eqb fst snd].
    destruct (text_eqb k (txt "run")) eqn:E; destruct (text_eqb (txt "run") k) eqn:E2; try reflexivity; [apply text_eqb_iff in E; subst; rewrite (proj2 (text_eqb_iff _ _) eq_refl) in E2; discriminate
    |apply text_eqb_iff in E2; subst; rewrite (proj2 (text_eqb_iff _ _) eq_refl) in E; discriminate].
Qed.
Lemma file_read names b f rest : file_text parse_float b f -> file_right trunc nonzero names f ->
  exists c, runs_to (read_all parse_float trunc nonzero unpack) (b ++ rest) c rest /\ right_file unpack names f c.
Proof.
  intros (b1 & b2 & b3 & b4 & b5 & E1 & E2 & C3 & B4 & R5 & ->) (NK & LR & FR & NC & ND). rewrite <- !app_assoc.
  destruct (header_read f b1 b2 b3 b4 (b5 ++ rest) E1 E2 C3 B4 NK) as (hd & ds & RH & GH & GC & FD).
  assert (NE : forall s, txt s = txt "channels" -> s = "channels"%string). { intros s H. apply (f_equal string_of_list_ascii) in H. unfold txt in H. now rewrite !string_of_list_ascii_of_string in H. }
  destruct (repeat_read (fun b r => run_text parse_float b r /\ get (Some (txt "steps")) hd = Some (Plain (VInt (Z.of_nat (List.length (r_steps r))))) /\ Forall (step_right trunc nonzero (List.length (f_channels f))) (r_steps r))
    (read_run parse_float trunc nonzero unpack hd) (right_run unpack names)) with (xs := f_runs f) (b := b5) (rest := rest) as (rns & RR & OK).
  { intros b r rest' (RT & GS & SR). now apply (run_read names (f_channels f) ds). }
  { destruct R5 as (bs & FB & ->). exists bs. split; [|reflexivity]. clear - FB FR GH NE. induction FB; [constructor|]. inversion FR as [|? ? [LS SR]]; subst. constructor; auto. split; [assumption|]. split; [|exact SR].
    rewrite GH by (intro X; apply NE in X; discriminate). rewrite LS. reflexivity. }
  eexists. split.
  - unfold read_all. eapply to_then; [exact RH|]. eapply to_then; [apply to_item; rewrite GH by (intro X; apply NE in X; discriminate); rewrite LR; reflexivity|].
    cbn [times_of_h times_of]. rewrite Nat2Z.id. eapply to_then; [apply to_ret|]. eapply to_then; [exact RR|]. apply to_ret.
  - split; [exact GH|]. split; [|exact OK]. exists ds. now split.
Qed.
End Reader.
