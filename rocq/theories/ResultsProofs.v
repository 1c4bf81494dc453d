(** Proofs about result files. *)
From Coq Require Import List String Ascii Bool Arith Lia.
From Verif Require Import OutputsModel OutputsSpec OutputsProofs ResultsModel ResultsSpec.
Import ListNotations.
Local Open Scope string_scope.

Section Proofs.
Context {num bytes : Type}.
Variable to_float : bytes -> string -> option num.
Variable np_has : string -> bool.
Variable json_ok : num -> bool.
Variable fits : bytes -> list nat -> string -> bool.
Variable num_eqb : num -> num -> bool.
Variable nonneg : num -> bool.
Local Notation value := (@value num bytes).
Local Notation record := (list (string * value)).
Local Notation doc := (list (string * @json num)).
Local Notation clean_dict := (@clean_dict num bytes to_float).
Local Notation body_run := (body_run to_float json_ok).
Local Notation read_record := (@read_record num bytes np_has).

Lemma put_same {A} k (v : A) f : put k v f k = Some v.
Proof. unfold put. rewrite String.eqb_refl. reflexivity. Qed.
Lemma put_other {A} k (v : A) f x : x <> k -> put k v f x = f x.
Proof. intros N. unfold put. destruct (String.eqb_spec x k); [contradiction|reflexivity]. Qed.

(** ** What is stored *)
Lemma clean_value_stored v z n j z' n' : clean_value to_float v z n = (j, z', n') -> stored to_float v j.
Proof.
  unfold clean_value. destruct v as [x|s|a]; intros H.
  - injection H as <- _ _. constructor.
  - injection H as <- _ _. constructor.
  - destruct (Nat.eqb_spec (size (nd_shape a)) 1) as [E|E].
    + destruct (to_float (nd_bytes a) (nd_dtype a)) as [x|] eqn:F; injection H as <- _ _.
      * apply stored_float; assumption.
      * apply stored_array; [right; assumption|]. exists ("#" ++ str_nat n ++ "#" ++ str_tuple (nd_shape a) ++ "#" ++ nd_dtype a). reflexivity.
    + injection H as <- _ _. apply stored_array; [left; exact E|]. exists ("#" ++ str_nat n ++ "#" ++ str_tuple (nd_shape a) ++ "#" ++ nd_dtype a). reflexivity.
Qed.
Lemma clean_dict_stored r : forall z n d z' n', clean_dict r z n = (d, z', n') -> stored_record to_float r d.
Proof.
  induction r as [|[k v] r IH]; intros z n d z' n' H; cbn in H.
  - injection H as <- _ _. constructor.
  - destruct (clean_value to_float v z n) as [[j z1] n1] eqn:E1. destruct (clean_dict r z1 n1) as [[js z2] n2] eqn:E2. injection H as <- _ _.
    constructor; [split; [reflexivity|eapply clean_value_stored; exact E1]|eapply IH; exact E2].
Qed.
Lemma stored_unique v j x : stored to_float v j -> stored to_float v (JNum x) -> j = JNum x.
Proof.
  intros A B. inversion B; subst; inversion A; subst; try reflexivity; try congruence. match goal with H : _ \/ _ |- _ => destruct H; congruence end.
Qed.
Lemma held_json r d : stored_record to_float r d -> (storable_json json_ok d = true <-> held_record to_float json_ok r).
Proof.
  intros F. unfold held_record. induction F as [|[k v] [k' j] r d [_ S] F IH]; [split; [constructor|reflexivity]|]. cbn [storable_json forallb snd] in *. fold (storable_json json_ok d).
  rewrite andb_true_iff, Forall_cons_iff, <- IH. cbn [snd]. split; intros [A B]; (split; [|exact B]).
  - intros x X. pose proof (stored_unique _ _ _ S X) as ->. exact A.
  - destruct j as [x|]; [|reflexivity]. exact (A x S).
Qed.
Lemma held_dec r : held_record to_float json_ok r \/ ~ held_record to_float json_ok r.
Proof.
  destruct (clean_dict r [] 0) as [[d z] n] eqn:E. apply clean_dict_stored in E. apply held_json in E.
  destruct (storable_json json_ok d); [left|right]; [apply E; reflexivity|]. intros H. apply E in H. discriminate.
Qed.
Lemma written_exists b : exists l e, written to_float json_ok b l e.
Proof.
  induction b as [|[c r] b (l & e & IH)]; [exists [], true; constructor|]. destruct (held_dec r) as [H|H].
  - exists (r :: l), e. constructor; assumption.
  - destruct c; [exists l, e; apply written_caught; assumption|]. exists [], false. apply written_stop. exact H.
Qed.

(** ** The body *)
Lemma body_spec b l e : written to_float json_ok b l e -> forall s, in_context s = true ->
  exists jss zs n', body_run s b = (Saver true (database s ++ jss)%list (archive s ++ zs)%list n', if e then Ok tt else Err TypeError) /\
    array_number s <= n' /\ names_in (array_number s) n' zs /\ Forall2 (stored_record to_float) l jss /\
    (Forall (Forall (fun kv => storable np_has (snd kv))) l -> forall later hi, names_in n' hi later ->
      Forall2 (fun d js => exists d', record_reads_as to_float d d' /\ read_record (archive s ++ zs ++ later)%list js = Ok d') l jss).
Proof.
  induction 1 as [|c r b l e Hr W IH|r b l e Hr W IH|r b Hr]; intros s Hs; cbn [ResultsModel.body_run].
  - exists [], [], (array_number s). rewrite !app_nil_r. destruct s as [c d z n]; cbn in *. subst c. repeat split; try constructor.
  - unfold write_record. rewrite Hs. destruct (clean_dict r (archive s) (array_number s)) as [[d z1] n1] eqn:E. pose proof (clean_dict_stored _ _ _ _ _ _ E) as St.
    rewrite (proj2 (held_json r d St) Hr). apply (clean_dict_spec to_float np_has) in E as (zs1 & -> & N1 & L1 & D1 & R1).
    destruct (IH (Saver true (database s ++ [d])%list (archive s ++ zs1)%list n1) eq_refl) as (jss & zs2 & n' & Eb & L2 & N2 & S2 & R2). cbn [database archive array_number] in *.
    exists (d :: jss), (zs1 ++ zs2)%list, n'. rewrite Eb, <- !app_assoc. split; [reflexivity|]. split; [lia|]. split.
    { apply Forall_app. split; [eapply names_in_weaken; [| |exact N1]; lia|]. eapply names_in_weaken; [| |exact N2]; lia. }
    split; [constructor; assumption|]. intros Hst later hi Hl. apply Forall_cons_iff in Hst as [Hst1 Hst2]. constructor.
    + destruct (R1 Hst1 (zs2 ++ later)%list (Nat.max hi n')) as (d' & Hd & Hr').
      { apply Forall_app. split; (eapply names_in_weaken; [| |eassumption]; lia). }
      exists d'. split; [exact Hd|]. rewrite <- app_assoc. exact Hr'.
    + specialize (R2 Hst2 later hi Hl). eapply Forall2_weaken; [|exact R2]. intros x js' (d' & ? & Hr'). exists d'. split; [assumption|]. rewrite <- !app_assoc in *. exact Hr'.
  - unfold write_record. rewrite Hs. destruct (clean_dict r (archive s) (array_number s)) as [[d z1] n1] eqn:E. pose proof (clean_dict_stored _ _ _ _ _ _ E) as St.
    assert (F : storable_json json_ok d = false) by (destruct (storable_json json_ok d) eqn:F; [exfalso; apply Hr; apply (held_json r d St); exact F|reflexivity]). rewrite F.
    apply (clean_dict_spec to_float np_has) in E as (zs1 & -> & N1 & L1 & D1 & _).
    destruct (IH (Saver true (database s) (archive s ++ zs1)%list n1) eq_refl) as (jss & zs2 & n' & Eb & L2 & N2 & S2 & R2). cbn [database archive array_number] in *.
    exists jss, (zs1 ++ zs2)%list, n'. rewrite Eb, <- !app_assoc. split; [reflexivity|]. split; [lia|]. split.
    { apply Forall_app. split; [eapply names_in_weaken; [| |exact N1]; lia|]. eapply names_in_weaken; [| |exact N2]; lia. }
    split; [exact S2|]. intros Hst later hi Hl. specialize (R2 Hst later hi Hl). rewrite <- !app_assoc in *. exact R2.
  - unfold write_record. rewrite Hs. destruct (clean_dict r (archive s) (array_number s)) as [[d z1] n1] eqn:E. pose proof (clean_dict_stored _ _ _ _ _ _ E) as St.
    assert (F : storable_json json_ok d = false) by (destruct (storable_json json_ok d) eqn:F; [exfalso; apply Hr; apply (held_json r d St); exact F|reflexivity]). rewrite F.
    apply (clean_dict_spec to_float np_has) in E as (zs1 & -> & N1 & L1 & D1 & _).
    exists [], zs1, n1. rewrite app_nil_r. repeat split; try constructor; assumption.
Qed.

(** ** Reading *)
Definition shows (z : list (string * bytes)) (sar : string) (v : @shown num bytes) (w : value) : Prop :=
  match w with
  | VNum x => v = SNum x
  | VStr s => v = SStr s
  | VArr x => exists a, v = SArr a /\ a_file a = sar /\ a_array a = None /\ a_shape a = nd_shape x /\ a_dtype a = nd_dtype x /\ zip_read ("a" ++ a_num a) z = Some (nd_bytes x)
  end.
Lemma show_value_read z sar j w : read_value np_has z j = Ok w -> exists v, show_value np_has sar j = Ok v /\ shows z sar v w.
Proof.
  destruct j as [x|s]; cbn [read_value show_value]; intros H.
  - injection H as <-. eexists. split; reflexivity.
  - destruct (String.prefix marker s); [|injection H as <-; eexists; split; reflexivity]. unfold read_array, new_array_reader in *.
    destruct (nth_error (hash_positions 0 s) 0) as [h0|]; [|discriminate]. destruct (nth_error (hash_positions 0 s) 1) as [h1|]; [|discriminate].
    destruct (nth_error (hash_positions 0 s) 2) as [h2|]; [|discriminate]. destruct (all_chars shape_char _); cbn [negb] in *; [|discriminate].
    destruct (eval_shape _) as [sh|]; cbn [bind] in *; [|discriminate]. destruct (np_has _) eqn:Nh; cbn [negb] in *; [|discriminate].
    destruct (zip_read _ z) as [b|] eqn:Z; cbn [bind] in *; [|discriminate]. injection H as <-. eexists. split; [reflexivity|]. eexists. split; [reflexivity|]. cbn. auto.
Qed.
Definition shows_record z sar (l : list (string * @shown num bytes)) (d : record) : Prop := Forall2 (fun kv kw => fst kv = fst kw /\ shows z sar (snd kv) (snd kw)) l d.
Lemma show_record_read z sar d : forall r, read_record z d = Ok r -> exists l, show_record np_has sar d = Ok l /\ shows_record z sar l r.
Proof.
  induction d as [|[k j] d IH]; intros r H; cbn in H.
  - injection H as <-. exists []. split; [reflexivity|constructor].
  - destruct (read_value np_has z j) as [w|] eqn:E; cbn in H; [|discriminate]. destruct (read_record z d) as [vs|] eqn:E2; cbn in H; [|discriminate]. injection H as <-.
    destruct (show_value_read z sar j w E) as (v & Sv & Sh). destruct (IH vs eq_refl) as (l & Sl & Shl). exists ((k, v) :: l). cbn [show_record]. rewrite Sv. cbn [bind]. rewrite Sl. split; [reflexivity|].
    constructor; [split; [reflexivity|exact Sh]|exact Shl].
Qed.
Lemma reads_sized r d : record_reads_as to_float r d -> sized fits r -> sized fits d.
Proof.
  intros H. unfold sized. induction H as [|[k v] [k' w] r d [E R] F IH]; intros S; [constructor|]. inversion S as [|? ? S1 S2]; subst. constructor; [|apply IH; exact S2].
  cbn [snd] in *. intros a ->. inversion R; subst. apply S1. reflexivity.
Qed.
Lemma shows_seen fs cwd z sar l d : archives fs (path_join cwd sar) = Some (Whole z) -> shows_record z sar l d -> sized fits d -> seen_record fits fs cwd l d.
Proof.
  intros A H. unfold sized. induction H as [|[k v] [k' w] l d [E R] F IH]; intros S; [constructor|]. inversion S as [|? ? S1 S2]; subst. constructor; [|apply IH; exact S2]. cbn [fst snd] in *. split; [exact E|].
  destruct w as [x|s|x]; cbn [shows] in R; [subst; constructor|subst; constructor|]. destruct R as (a & -> & Af & An & As & Ad & Z). constructor. unfold use_array. rewrite An, Af, A, Z, As, Ad, (S1 x eq_refl). destruct x; reflexivity.
Qed.
Lemma shows_unfinished fs cwd z sar l d : archives fs (path_join cwd sar) = Some Unfinished -> shows_record z sar l d ->
  Forall2 (fun kv kw => fst kv = fst kw /\
      match snd kw with VArr _ => exists a, snd kv = SArr a /\ snd (use_array fits fs cwd a) = NotAZip | _ => seen fits fs cwd (snd kv) (snd kw) end) l d.
Proof.
  intros A H. eapply Forall2_weaken; [|exact H]. intros [k v] [k' w] [E R]. cbn [fst snd] in *. split; [exact E|].
  destruct w as [x|s|x]; cbn [shows] in R; [subst; constructor|subst; constructor|]. destruct R as (a & -> & Af & An & _). exists a. split; [reflexivity|]. unfold use_array. rewrite An, Af, A. reflexivity.
Qed.

(** ** Names *)
Lemma length_app a b : String.length (a ++ b) = String.length a + String.length b.
Proof. induction a as [|c a IH]; [reflexivity|]. cbn. rewrite IH. reflexivity. Qed.
Lemma substring_at a b : substring (String.length a) (String.length b) (a ++ b) = b.
Proof. rewrite substring_skip. apply substring_full. Qed.
Lemma ends_with_app a t : ends_with t (a ++ t) = true.
Proof.
  unfold ends_with. rewrite length_app. replace (String.length a + String.length t - String.length t) with (String.length a) by lia. rewrite substring_at, String.eqb_refl, andb_true_r. apply Nat.leb_le. lia.
Qed.
Lemma drop_4_sdb a : drop_4 (a ++ ".sdb") = a.
Proof. unfold drop_4. rewrite length_app. cbn [String.length]. replace (String.length a + 4 - 4) with (String.length a) by lia. apply substring_zero_app. Qed.
Lemma append_assoc a b c : ((a ++ b) ++ c = a ++ (b ++ c))%string.
Proof. apply sapp_assoc. Qed.
Lemma prefix_slash a b : a <> "" -> String.prefix "/" (a ++ b) = String.prefix "/" a.
Proof. destruct a as [|c a]; [contradiction|]. intros _. cbn [append String.prefix]. destruct (ascii_dec "/" c); [destruct (a ++ b), a; reflexivity|reflexivity]. Qed.
Lemma join_app d n e : n <> "" -> path_join d (n ++ e) = path_join d n ++ e.
Proof.
  intros N. unfold path_join. rewrite prefix_slash by exact N. destruct (String.prefix "/" n); [reflexivity|]. destruct (String.eqb d "" || ends_with "/" d); rewrite ?append_assoc; reflexivity.
Qed.
Lemma show_all_ok sar ds : forall ls, Forall2 (fun d l => show_record np_has sar d = Ok l) ds ls -> show_all np_has sar ds = @Ok (list (list (string * @shown num bytes))) ls.
Proof. induction ds as [|d ds IH]; intros ls H; inversion H; subst; [reflexivity|]. cbn. rewrite H2. cbn. rewrite (IH _ H4). reflexivity. Qed.

(** ** A session *)
Lemma session_spec fs cwd out name s b l e killed : written to_float json_ok b l e ->
  exists fs1 s1 ds z, session to_float json_ok fs cwd out name s b killed = (fs1, s1, if e then Ok tt else Err TypeError) /\ in_context s1 = false /\
    databases fs1 (saver_base cwd out name ++ ".sdb") = Some ds /\ archives fs1 (saver_base cwd out name ++ ".sar") = Some (if killed then Unfinished else Whole z) /\
    (forall p, p <> saver_base cwd out name ++ ".sdb" -> databases fs1 p = databases fs p) /\ (forall p, p <> saver_base cwd out name ++ ".sar" -> archives fs1 p = archives fs p) /\
    Forall2 (stored_record to_float) l ds /\
    (Forall (Forall (fun kv => storable np_has (snd kv))) l -> Forall2 (fun d js => exists d', record_reads_as to_float d d' /\ read_record z js = Ok d') l ds).
Proof.
  intros W. destruct (body_spec b l e W (enter s) eq_refl) as (jss & zs & n' & Eb & _ & _ & St & Rd). cbn [enter database archive array_number app] in *. unfold session. rewrite Eb.
  do 4 eexists. split; [reflexivity|]. cbn [databases archives exit_ in_context]. rewrite !put_same. split; [reflexivity|]. split; [reflexivity|]. split; [reflexivity|].
  split; [intros p; apply put_other|]. split; [intros p; apply put_other|]. split; [exact St|]. intros H. specialize (Rd H [] n'). rewrite app_nil_r in Rd. apply Rd. constructor.
Qed.

(** ** Names of files *)
Lemma join_nonempty d n : n <> "" -> path_join d n <> "".
Proof. intros N. unfold path_join. destruct (String.prefix "/" n); [exact N|]. destruct (_ || _); destruct d as [|c d]; cbn; intros X; try discriminate; contradiction. Qed.
Lemma ends_with_true t s : ends_with t s = true -> exists b, s = b ++ t.
Proof.
  unfold ends_with. rewrite andb_true_iff, Nat.leb_le, String.eqb_eq. intros [L E]. exists (substring 0 (String.length s - String.length t) s). rewrite <- E at 2.
  remember (String.length s - String.length t) as k eqn:K. remember (String.length t) as m eqn:M. assert (X : String.length s = k + m) by lia. clear - X.
  revert k X. induction s as [|c s IH]; intros k X; cbn in X.
  - destruct k, m; try discriminate. reflexivity.
  - destruct k as [|k].
    + cbn [substring append]. destruct m as [|m]; [discriminate|]. cbn in X. injection X as X. rewrite <- X. cbn [substring]. rewrite substring_full. reflexivity.
    + cbn [substring append]. f_equal. apply IH. cbn in X. lia.
Qed.
Lemma named cwd out name n : name <> "" -> names_file out name n ->
  path_join cwd (sdb_name n) = saver_base cwd out name ++ ".sdb" /\ path_join cwd (drop_4 (sdb_name n) ++ ".sar") = saver_base cwd out name ++ ".sar".
Proof.
  intros N H. assert (X : sdb_name n = path_join out name ++ ".sdb").
  { unfold sdb_name. destruct H as [->|[-> H]]; [rewrite ends_with_app; reflexivity|]. destruct (ends_with ".sdb" (path_join out name)) eqn:E; [|reflexivity]. apply ends_with_true in E as [b E]. exfalso. exact (H b E). }
  rewrite X, drop_4_sdb. unfold saver_base. rewrite !join_app by (apply join_nonempty; exact N). split; reflexivity.
Qed.

(** ** Times *)
Lemma stored_dget r d k : stored_record to_float r d -> match dget k r, dget k d with Some v, Some j => stored to_float v j | None, None => True | _, _ => False end.
Proof. induction 1 as [|[k1 v] [k2 j] r d [E S] F IH]; cbn; [exact I|]. cbn in E. subst k2. destruct (String.eqb k k1); [exact S|exact IH]. Qed.
Lemma at_time_stored t r d : stored_record to_float r d -> (at_time to_float t r <-> has_time t d).
Proof.
  intros S. pose proof (stored_dget r d "time" S) as D. unfold at_time, has_time. split.
  - intros (v & E & X). rewrite E in D. destruct (dget "time" d) as [j|]; [|contradiction]. f_equal. eapply stored_unique; eassumption.
  - intros E. rewrite E in D. destruct (dget "time" r) as [v|]; [|contradiction]. exists v. split; [reflexivity|exact D].
Qed.
Lemma timed_stored r d : stored_record to_float r d -> (timed to_float r <-> text_time d = false).
Proof.
  intros S. pose proof (stored_dget r d "time" S) as D. unfold timed, text_time. destruct (dget "time" r) as [v|], (dget "time" d) as [[x|s]|]; try contradiction.
  - split; [reflexivity|]. intros _ w E. injection E as <-. exists x. exact D.
  - split; [|discriminate]. intros H. destruct (H v eq_refl) as [t X]. pose proof (stored_unique _ _ _ D X). discriminate.
  - split; [reflexivity|]. intros _ w E. discriminate.
Qed.
Lemma text_times l ds : Forall2 (stored_record to_float) l ds -> (Forall (timed to_float) l <-> existsb text_time ds = false).
Proof.
  induction 1 as [|r d l ds S F IH]; [split; [reflexivity|constructor]|]. cbn [existsb]. rewrite orb_false_iff, Forall_cons_iff, <- IH, (timed_stored r d S). reflexivity.
Qed.
Lemma not_at_all t l ds : Forall2 (stored_record to_float) l ds -> (Forall (fun q => ~ at_time to_float t q) l <-> Forall (fun q => ~ has_time t q) ds).
Proof. induction 1 as [|r d l ds S F IH]; [split; constructor|]. rewrite !Forall_cons_iff, IH, (at_time_stored t r d S). reflexivity. Qed.
Lemma split_left {A B} (P : A -> B -> Prop) l ds pre r post : Forall2 P l ds -> l = (pre ++ r :: post)%list -> exists pre' d post', ds = (pre' ++ d :: post')%list /\ Forall2 P pre pre' /\ P r d /\ Forall2 P post post'.
Proof. intros F ->. apply Forall2_app_inv_l in F as (a & b & Fa & Fb & ->). inversion Fb; subst. do 3 eexists. split; [reflexivity|]. auto. Qed.
Lemma split_right {A B} (P : A -> B -> Prop) l ds pre d post : Forall2 P l ds -> ds = (pre ++ d :: post)%list -> exists pre' r post', l = (pre' ++ r :: post')%list /\ Forall2 P pre' pre /\ P r d /\ Forall2 P post' post.
Proof. intros F ->. apply Forall2_app_inv_r in F as (a & b & Fa & Fb & ->). inversion Fb; subst. do 3 eexists. split; [reflexivity|]. auto. Qed.

(** ** Getting results from stored documents that show well *)
Section Getters.
Variable num_eqb_spec : forall x y, num_eqb x y = true <-> x = y.
Variable B : record -> list (string * @shown num bytes) -> Prop.
Variable sar : string.
Definition good (r : record) (d : doc) : Prop := stored_record to_float r d /\ exists l, show_record np_has sar d = Ok l /\ B r l.
Lemma good_stored l ds : Forall2 good l ds -> Forall2 (stored_record to_float) l ds.
Proof. intros F. eapply Forall2_weaken; [|exact F]. intros ? ? [H _]. exact H. Qed.

Lemma search_good q l ds : Forall2 good l ds -> exists ls, show_all np_has sar (filter q ds) = Ok ls /\ Forall2 B (map fst (filter (fun p => q (snd p)) (combine l ds))) ls.
Proof.
  induction 1 as [|r d l ds [_ (v & Sv & Bv)] F (ls & IH & Bs)]; [exists []; split; [reflexivity|constructor]|]. cbn [filter combine snd]. destruct (q d).
  - exists (v :: ls). cbn [show_all map fst]. rewrite Sv. cbn [bind]. rewrite IH. split; [reflexivity|constructor; assumption].
  - exists ls. split; assumption.
Qed.
Lemma filter_idem {A} (f : A -> bool) l : filter f (filter f l) = filter f l.
Proof. induction l as [|a l IH]; [reflexivity|]. cbn. destruct (f a) eqn:E; [cbn; rewrite E, IH|]; [reflexivity|exact IH]. Qed.
Lemma times_idem (ds : list doc) : time_points nonneg (all_entries nonneg ds) = time_points nonneg ds.
Proof. unfold time_points, all_entries. rewrite filter_idem. reflexivity. Qed.
Lemma fields_idem (ds : list doc) : fields nonneg (all_entries nonneg ds) = fields nonneg ds.
Proof. unfold fields, all_entries. rewrite filter_idem. reflexivity. Qed.
Lemma mem_times l ds t : Forall2 (stored_record to_float) l ds -> (mem_num num_eqb t (time_points nonneg ds) = true <-> (exists r, In r l /\ at_time to_float t r) /\ nonneg t = true).
Proof.
  intros F. rewrite (mem_time_points num_eqb nonneg num_eqb_spec). split.
  - intros (e & I1 & T & N). split; [|exact N]. apply in_split in I1 as (pre & post & E). destruct (split_right _ _ _ _ _ _ F E) as (a & r & c & -> & _ & S & _). exists r. split; [apply in_or_app; right; left; reflexivity|]. apply (at_time_stored t r e S). exact T.
  - intros [(r & I1 & T) N]. apply in_split in I1 as (pre & post & E). destruct (split_left _ _ _ _ _ _ F E) as (a & d & c & -> & _ & S & _). exists d. split; [apply in_or_app; right; left; reflexivity|]. split; [|exact N]. apply (at_time_stored t r d S). exact T.
Qed.
Lemma In_times l ds t : Forall2 (stored_record to_float) l ds -> (In t (time_points nonneg ds) <-> (exists r, In r l /\ at_time to_float t r) /\ nonneg t = true).
Proof.
  intros F. rewrite <- (mem_times l ds t F). unfold mem_num. rewrite existsb_exists. split; [intros I1; exists t; split; [exact I1|apply num_eqb_spec; reflexivity]|]. intros (x & I1 & E). apply num_eqb_spec in E. subst. exact I1.
Qed.
Definition time_result (t : num) (ds : list doc) : result (list (string * @shown num bytes)) :=
  if mem_num num_eqb t (time_points nonneg ds) then match filter (time_is num_eqb t) ds with e :: _ => show_record np_has sar e | [] => Err IndexError end else Err IndexError.
Lemma time_good t l ds r : Forall2 good l ds -> first_at to_float t l r -> nonneg t = true -> exists v, time_result t ds = Ok v /\ B r v.
Proof.
  intros F (pre & post & E & T & P) N. unfold time_result. pose proof (good_stored _ _ F) as St.
  rewrite (proj2 (mem_times l ds t St)) by (split; [exists r; split; [rewrite E; apply in_or_app; right; left; reflexivity|exact T]|exact N]).
  destruct (split_left _ _ _ _ _ _ F E) as (a & d & c & -> & Fa & [S (v & Sv & Bv)] & Fc).
  rewrite filter_first_eq; [exists v; split; assumption| |].
  - apply (time_is_has num_eqb num_eqb_spec). apply (at_time_stored t r d S). exact T.
  - apply (not_has_time_is num_eqb num_eqb_spec). apply (not_at_all t pre a (good_stored _ _ Fa)). exact P.
Qed.
Lemma time_bad t l ds : Forall2 good l ds -> (forall r, In r l -> ~ at_time to_float t r) \/ nonneg t = false -> time_result t ds = Err IndexError.
Proof.
  intros F H. unfold time_result. destruct (mem_num num_eqb t (time_points nonneg ds)) eqn:E; [|reflexivity]. apply (mem_times l ds t (good_stored _ _ F)) in E as [(r & I1 & T) N]. exfalso. destruct H as [H|H]; [exact (H r I1 T)|congruence].
Qed.

(** Fields *)
Lemma show_record_dget d : forall (l : list (string * @shown num bytes)), show_record np_has sar d = Ok l -> forall f,
  match dget f d with Some j => exists v, show_value np_has sar j = Ok v /\ dget f l = Some v | None => dget f l = None end.
Proof.
  induction d as [|[k j] d IH]; intros l H f; cbn in H; [injection H as <-; reflexivity|]. destruct (show_value np_has sar j) as [v|] eqn:E; cbn in H; [|discriminate].
  destruct (show_record np_has sar d) as [l'|] eqn:E2; cbn in H; [|discriminate]. injection H as <-. cbn [dget]. destruct (String.eqb f k); [exists v; split; [exact E|reflexivity]|]. apply IH. reflexivity.
Qed.
Definition showable (o : option (@json num)) : Prop := forall j, o = Some j -> exists v, @show_value num bytes np_has sar j = Ok v.
Lemma show_field_nget (d : list (num * option (@json num))) : Forall (fun to => showable (snd to)) d -> exists m, @show_field num bytes np_has sar d = Ok m /\
  forall t, match nget num_eqb t d with Some (Some j) => exists v, show_value np_has sar j = Ok v /\ nget num_eqb t m = Some (Some v) | Some None => nget num_eqb t m = Some None | None => nget num_eqb t m = None end.
Proof.
  induction d as [|[t0 o] d IH]; intros F; [exists []; split; [reflexivity|intros; reflexivity]|]. inversion F as [|? ? F1 F2]; subst. destruct (IH F2) as (m & Em & Hm). cbn [snd] in F1. destruct o as [j|].
  - destruct (F1 j eq_refl) as [v Ev]. exists ((t0, Some v) :: m). cbn [show_field]. rewrite Ev. cbn [bind]. rewrite Em. split; [reflexivity|]. intros t. cbn [nget]. destruct (num_eqb t t0); [exists v; split; [exact Ev|reflexivity]|apply Hm].
  - exists ((t0, None) :: m). cbn [show_field]. rewrite Em. split; [reflexivity|]. intros t. cbn [nget]. destruct (num_eqb t t0); [reflexivity|apply Hm].
Qed.
Lemma nset_Forall {V} (P : num * V -> Prop) k v d : (forall k', P (k', v)) -> Forall P d -> Forall P (nset num_eqb k v d).
Proof. intros H F. induction F as [|[k' v'] d X F IH]; cbn; [constructor; [apply H|constructor]|]. destruct (num_eqb k k'); constructor; auto. Qed.
Lemma field_dict_showable f (ds : list doc) : Forall (fun d => showable (dget f d)) ds -> Forall (fun to => showable (snd to)) (field_dict num_eqb f ds).
Proof.
  unfold field_dict. assert (G : forall acc, Forall (fun to => showable (snd to)) acc -> Forall (fun d => showable (dget f d)) ds -> Forall (fun to => showable (snd to)) (fold_left (fun d e => match entry_time e with Some t => nset num_eqb t (dget f e) d | None => d end) ds acc)).
  { induction ds as [|d ds IH]; intros acc A F; [exact A|]. inversion F as [|? ? F1 F2]; subst. cbn [fold_left]. apply IH; [|exact F2]. destruct (entry_time d); [|exact A]. apply nset_Forall; [intros; exact F1|exact A]. }
  apply G. constructor.
Qed.
Lemma good_field l ds f : Forall2 good l ds -> Forall (fun d => showable (dget f d)) ds.
Proof.
  induction 1 as [|r d l ds [_ (v & Sv & _)] F IH]; constructor; [|exact IH]. intros j E. pose proof (show_record_dget d v Sv f) as X. rewrite E in X. destruct X as (w & Ew & _). exists w. exact Ew.
Qed.
Lemma last_stored t l ds : Forall2 good l ds -> (forall r, last_at to_float t l r -> exists d, last_with_time t ds d /\ good r d) /\ (forall d, last_with_time t ds d -> exists r, last_at to_float t l r /\ good r d).
Proof.
  intros F. split.
  - intros r (pre & post & E & T & P). destruct (split_left _ _ _ _ _ _ F E) as (a & d & c & -> & Fa & G & Fc). exists d. split; [|exact G]. exists a, c. split; [reflexivity|]. split; [apply (at_time_stored t r d (proj1 G)); exact T|]. apply (not_at_all t post c (good_stored _ _ Fc)). exact P.
  - intros d (pre & post & E & T & P). destruct (split_right _ _ _ _ _ _ F E) as (a & r & c & -> & Fa & G & Fc). exists r. split; [|exact G]. exists a, c. split; [reflexivity|]. split; [apply (at_time_stored t r d (proj1 G)); exact T|]. apply (not_at_all t c post (good_stored _ _ Fc)). exact P.
Qed.
Lemma stored_keys r d : stored_record to_float r d -> map fst d = map fst r.
Proof. induction 1 as [|[k v] [k' j] r d [E _] F IH]; [reflexivity|]. cbn in *. rewrite IH, E. reflexivity. Qed.
Lemma mem_fields l ds f : Forall2 (stored_record to_float) l ds -> (mem_str f (fields nonneg ds) = true <-> exists r t, In r l /\ at_time to_float t r /\ nonneg t = true /\ In f (map fst r)).
Proof.
  intros F. rewrite (field_known nonneg). split.
  - intros (e & t & I1 & T & N & K). apply in_split in I1 as (pre & post & E). destruct (split_right _ _ _ _ _ _ F E) as (a & r & c & -> & _ & S & _). exists r, t. split; [apply in_or_app; right; left; reflexivity|]. split; [apply (at_time_stored t r e S); exact T|]. split; [exact N|]. rewrite <- (stored_keys r e S). exact K.
  - intros (r & t & I1 & T & N & K). apply in_split in I1 as (pre & post & E). destruct (split_left _ _ _ _ _ _ F E) as (a & d & c & -> & _ & S & _). exists d, t. split; [apply in_or_app; right; left; reflexivity|]. split; [apply (at_time_stored t r d S); exact T|]. split; [exact N|]. rewrite (stored_keys r d S). exact K.
Qed.
Definition field_result (f : string) (ds : list doc) : result (list (num * option (@shown num bytes))) :=
  if mem_str f (fields nonneg ds) then show_field np_has sar (field_dict num_eqb f (all_entries nonneg ds)) else Err IndexError.
Lemma all_entries_in (ds : list doc) d : In d (all_entries nonneg ds) -> In d ds.
Proof. intros H. apply filter_In in H. tauto. Qed.
Lemma field_good f l ds : Forall2 good l ds -> (exists r t, In r l /\ at_time to_float t r /\ nonneg t = true /\ In f (map fst r)) ->
  exists m, field_result f ds = Ok m /\
    (forall t o, nget num_eqb t m = Some o -> exists r v, last_at to_float t l r /\ nonneg t = true /\ B r v /\ o = dget f v) /\
    (forall t r, last_at to_float t l r -> nonneg t = true -> exists o, nget num_eqb t m = Some o).
Proof.
  intros F H. unfold field_result. rewrite (proj2 (mem_fields l ds f (good_stored _ _ F)) H).
  pose proof (good_field l ds f F) as Sh. assert (Sh' : Forall (fun d => showable (dget f d)) (all_entries nonneg ds)) by (rewrite Forall_forall in *; intros d I1; apply Sh, all_entries_in; exact I1).
  destruct (show_field_nget _ (field_dict_showable f _ Sh')) as (m & Em & Hm). exists m. split; [exact Em|].
  pose proof (fun t v => field_dict_last num_eqb nonneg num_eqb_spec f ds t v) as FD. split.
  - intros t o E. specialize (Hm t). destruct (nget num_eqb t (field_dict num_eqb f (all_entries nonneg ds))) as [o'|] eqn:G; [|congruence].
    apply FD in G as (d & L & N & ->). destruct (proj2 (last_stored t l ds F) d L) as (r & Lr & S & v & Sv & Bv). exists r, v. split; [exact Lr|]. split; [exact N|]. split; [exact Bv|].
    pose proof (show_record_dget d v Sv f) as X. destruct (dget f d) as [j|]; [|congruence]. destruct X as (w & Ew & X), Hm as (w' & Ew' & Hm). congruence.
  - intros t r L N. destruct (proj1 (last_stored t l ds F) r L) as (d & Ld & _). specialize (Hm t). rewrite (proj2 (FD t (dget f d))) in Hm by (exists d; auto). destruct (dget f d); [destruct Hm as (v & _ & Hm)|]; eexists; exact Hm.
Qed.
Lemma field_bad f l ds : Forall2 good l ds -> ~ (exists r t, In r l /\ at_time to_float t r /\ nonneg t = true /\ In f (map fst r)) -> field_result f ds = Err IndexError.
Proof. intros F H. unfold field_result. destruct (mem_str f (fields nonneg ds)) eqn:E; [|reflexivity]. apply (mem_fields l ds f (good_stored _ _ F)) in E. contradiction. Qed.
End Getters.

Lemma results_good (num_eqb_spec : forall x y, num_eqb x y = true <-> x = y) B fs cwd n l ds :
  databases fs (path_join cwd (sdb_name n)) = Some ds -> Forall2 (good B (drop_4 (sdb_name n) ++ ".sar")) l ds -> Forall (timed to_float) l ->
  open_reader nonneg fs cwd n = (fs, Ok (Reader (sdb_name n) (all_entries nonneg ds))) /\ results to_float np_has num_eqb nonneg B fs cwd (Reader (sdb_name n) (all_entries nonneg ds)) l.
Proof.
  intros D F T. pose proof (good_stored _ _ _ _ F) as St. assert (O : open_db fs (path_join cwd (sdb_name n)) = (fs, ds)) by (unfold open_db; rewrite D; reflexivity). split.
  { unfold open_reader. rewrite O, (proj1 (text_times l ds St) T). reflexivity. }
  constructor.
  - intros t. unfold r_times. cbn [r_entries]. rewrite times_idem. apply In_times; assumption.
  - intros t r L N. unfold get_time, r_times. cbn [r_entries r_file]. rewrite O, times_idem. destruct (time_good num_eqb_spec B _ t l ds r F L N) as (v & E & Bv). exists v. split; [|exact Bv]. f_equal. exact E.
  - intros t H. unfold get_time, r_times. cbn [r_entries r_file]. rewrite O, times_idem. f_equal. exact (time_bad num_eqb_spec B _ t l ds F H).
  - intros f H. unfold get_field, r_fields. cbn [r_entries r_file]. rewrite O, fields_idem. destruct (field_good num_eqb_spec B _ f l ds F H) as (m & E & X). exists m. split; [f_equal; exact E|exact X].
  - intros f H. unfold get_field, r_fields. cbn [r_entries r_file]. rewrite O, fields_idem. f_equal. exact (field_bad B _ f l ds F H).
  - exists ds. split; [exact St|]. intros q. unfold search. cbn [r_file]. rewrite O. destruct (search_good B _ q l ds F) as (ls & E & X). exists ls. split; [f_equal; exact E|exact X].
Qed.
Lemma good_whole fs cwd sar z l ds : archives fs (path_join cwd sar) = Some (Whole z) -> Forall (sized fits) l -> Forall2 (stored_record to_float) l ds ->
  Forall2 (fun d js => exists d', record_reads_as to_float d d' /\ read_record z js = Ok d') l ds -> Forall2 (good (reads_back to_float fits fs cwd) sar) l ds.
Proof.
  intros A Z St. revert Z. induction St as [|r d l ds S F IH]; intros Z R1; [constructor|]. inversion R1 as [|? ? ? ? (d' & R2 & R3) R4]; subst. inversion Z as [|? ? Z1 Z2]; subst. constructor; [|apply IH; assumption].
  split; [exact S|]. destruct (show_record_read z sar d d' R3) as (v & Ev & Sv). exists v. split; [exact Ev|]. exists d'. split; [exact R2|]. eapply shows_seen; [exact A|exact Sv|]. eapply reads_sized; eassumption.
Qed.
Lemma good_unfinished fs cwd sar z l ds : archives fs (path_join cwd sar) = Some Unfinished -> Forall2 (stored_record to_float) l ds ->
  Forall2 (fun d js => exists d', record_reads_as to_float d d' /\ read_record z js = Ok d') l ds -> Forall2 (good (reads_back_without to_float fits NotAZip fs cwd) sar) l ds.
Proof.
  intros A St. induction St as [|r d l ds S F IH]; intros R1; [constructor|]. inversion R1 as [|? ? ? ? (d' & R2 & R3) R4]; subst. constructor; [|apply IH; assumption].
  split; [exact S|]. destruct (show_record_read z sar d d' R3) as (v & Ev & Sv). exists v. split; [exact Ev|]. exists d'. split; [exact R2|]. eapply shows_unfinished; [exact A|exact Sv].
Qed.
End Proofs.
