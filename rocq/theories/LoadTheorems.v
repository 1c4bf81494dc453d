(** C113: surfaces made from arrays and files have the heights, the spacing and the extent of what they were made from. *)
From Coq Require Import String Ascii List Bool Arith Reals Lia Lra.
From Verif Require Import Py SurfaceModel SurfaceProofs Flt LoadModel LoadSpec LoadProofs.
Import ListNotations.
Local Open Scope R_scope.

(** ** Text files *)
(** The profile has the rows with numbers only, in their order; others are dropped. Rows of different lengths are an
    error, and no rows an empty profile. *)
Theorem c113_rows : forall parse D by_delimiter sniff reader content delimiter dialect bytes d,
  match delimiter with Some x => d = by_delimiter x | None => match dialect with Some x => d = x | None => sniff (substring 0 bytes content) = Some d end end ->
  let r := read_csv parse D by_delimiter sniff reader content delimiter dialect bytes in
  exists rows, kept parse (reader d content) rows /\
    match rows with
    | [] => r = Ok Empty
    | first :: _ => (even (List.length first) rows -> exists t, r = Ok (Filled t) /\ holds t rows (List.length first)) /\
                    (~ even (List.length first) rows -> r = Err ValueError)
    end.
Proof.
  intros parse D byd sniff reader content delimiter dialect bytes d Hd r. exists (number_rows parse (reader d content)). split; [apply kept_iff; reflexivity|].
  assert (R : r = to_table (number_rows parse (reader d content))).
  { unfold r, read_csv. destruct delimiter as [x|]; [subst d; reflexivity|]. destruct dialect as [x|]; [subst d; reflexivity|]. rewrite Hd. reflexivity. }
  rewrite R. destruct (number_rows parse (reader d content)) as [|first rest] eqn:E; [reflexivity|]. split.
  - intros V. apply to_table_even; [exact V|discriminate].
  - intros V. destruct (to_table (first :: rest)) as [p|e] eqn:T.
    + exfalso. apply to_table_ok in T. destruct T as [[T _]|(t & c & _ & Ev & _)]; [discriminate|]. apply V. inversion Ev; subst. exact Ev.
    + unfold to_table in T. destruct (forallb _ rest); [discriminate|]. congruence.
Qed.
Print Assumptions c113_rows.

(** Numbers that were written are read back, for every way to write and split them in which that can be. *)
Theorem c113_read_back : forall parse show D by_delimiter sniff reader content delimiter bytes data c,
  readable parse show (concat data) -> reader (by_delimiter delimiter) content = map (map show) data -> data <> [] -> even (S c) data ->
  exists t, read_csv parse D by_delimiter sniff reader content (Some delimiter) None bytes = Ok (Filled t) /\ holds t data (S c).
Proof.
  intros parse show D byd sniff reader content delimiter bytes data c R E N V. unfold read_csv. cbn [bind]. rewrite E, (number_rows_show parse show data R).
  - apply to_table_even; assumption.
  - eapply Forall_impl; [|exact V]. intros r L. destruct r; [discriminate L|discriminate].
Qed.
Print Assumptions c113_read_back.

(** Rows that the reader does not split are split at white space. *)
Theorem c113_white_space : forall parse D by_delimiter sniff reader content delimiter bytes lines data c,
  reader (by_delimiter delimiter) content = map (fun l => [spaced l]) lines -> lines <> [] ->
  Forall apart lines -> Forall2 (fun l v => Forall2 (fun w x => parse (fst w) = Some x) l v) lines data -> even c data ->
  exists t, read_csv parse D by_delimiter sniff reader content (Some delimiter) None bytes = Ok (Filled t) /\ holds t data c.
Proof.
  intros parse D byd sniff reader content delimiter bytes lines data c E N A P V. unfold read_csv. cbn [bind]. rewrite E.
  assert (R : number_rows parse (map (fun l => [spaced l]) lines) = data).
  { clear E N V. revert data P. induction lines as [|l lines IH]; intros data P; inversion P; subst; [reflexivity|]. inversion A; subst. cbn [map number_rows fields].
    rewrite words_spaced by assumption. pose proof (words_nonempty (spaced l) EmptyString) as W. change (words_from EmptyString (spaced l)) with (words (spaced l)) in W. rewrite words_spaced in W by assumption. rewrite filter_id by exact W.
    assert (Q : parse_all parse (map fst l) = Some y).
    { apply parse_all_spec. clear -H1. induction H1; cbn; constructor; assumption. }
    rewrite Q. f_equal. apply IH; assumption. }
  rewrite R. apply to_table_even; [exact V|]. intros ->. inversion P. subst. contradiction.
Qed.
Print Assumptions c113_white_space.

(** Lines with a word that is not a number are skipped, wherever they are. *)
Theorem c113_header : forall parse a row b w, In w (fields row) -> parse w = None -> number_rows parse (a ++ row :: b) = number_rows parse (a ++ b).
Proof.
  intros parse a row b w I P. rewrite !number_rows_app. f_equal. cbn [number_rows]. destruct row as [|s row]; [reflexivity|]. rewrite (parse_all_none parse _ w I P). reflexivity.
Qed.
(** Refuted: values that can't be read are an error. One of them removes its row, and the next rows move up. *)
Theorem c113_bad_value_refuted : forall parse show D by_delimiter sniff reader content delimiter bytes before row after c j w,
  readable parse show (concat (before ++ after)) -> parse w = None -> solid w -> w <> EmptyString -> (j < List.length row)%nat -> even (S c) (before ++ row :: after) -> before ++ after <> [] ->
  reader (by_delimiter delimiter) content = map (map show) before ++ (firstn j (map show row) ++ w :: skipn (S j) (map show row)) :: map (map show) after ->
  exists t, read_csv parse D by_delimiter sniff reader content (Some delimiter) None bytes = Ok (Filled t) /\ holds t (before ++ after) (S c).
Proof.
  intros parse show D byd sniff reader content delimiter bytes before row after c j w R P Sw Nw J V N E. unfold read_csv. cbn [bind]. rewrite E.
  set (bad := firstn j (map show row) ++ w :: skipn (S j) (map show row)).
  assert (I : In w (fields bad)).
  { unfold fields. assert (W : In w bad) by (unfold bad; apply in_or_app; right; left; reflexivity). assert (Ne : nonempty w = true) by (unfold nonempty; destruct w; [contradiction|reflexivity]).
    destruct bad as [|s [|s' bad']] eqn:B; [contradiction| |apply filter_In; split; assumption].
    destruct W as [<-|[]]. pose proof (words_spaced [(s, EmptyString)]) as Q. cbn [spaced append map fst] in Q. rewrite sapp_nil in Q. rewrite Q by (repeat split; assumption). apply filter_In. split; [left; reflexivity|exact Ne]. }
  rewrite (c113_header parse _ bad _ w I P). rewrite <- map_app.
  assert (V2 : even (S c) (before ++ after)) by (apply Forall_app in V; destruct V as [V1 V2]; inversion V2; subst; apply Forall_app; split; assumption).
  rewrite (number_rows_show parse show _ R); [apply to_table_even; assumption|]. eapply Forall_impl; [|exact V2]. intros r L. destruct r; [discriminate L|discriminate].
Qed.
Print Assumptions c113_bad_value_refuted.

(** Refuted: empty fields are missing heights. A column of empty fields is left out, and the next columns move; an empty
    field in some of the rows only is an error. *)
Lemma emptied_fields parse show row j c : readable parse show (without j row) -> List.length row = S (S (S c)) -> (j < S (S (S c)))%nat ->
  fields (emptied j (map show row)) = map show (without j row).
Proof.
  intros R L J. unfold fields, emptied, without. assert (Len : (2 <= List.length (firstn j (map show row) ++ EmptyString :: skipn (S j) (map show row)))%nat).
  { rewrite app_length. cbn [List.length]. rewrite firstn_length, skipn_length, map_length, L. lia. }
  rewrite map_app, <- firstn_map, <- skipn_map. destruct (firstn j (map show row) ++ EmptyString :: skipn (S j) (map show row)) as [|s [|s' l]] eqn:B; [cbn in Len; lia|cbn in Len; lia|].
  rewrite <- B, filter_app. cbn [filter]. change (nonempty EmptyString) with false. cbv iota. rewrite <- filter_app. rewrite firstn_map, skipn_map, <- map_app. apply (show_nonempty parse show _ R).
Qed.
Lemma without_length {A} j (l : list A) : (j < List.length l)%nat -> List.length (without j l) = (List.length l - 1)%nat.
Proof. intros J. unfold without. rewrite app_length, firstn_length, skipn_length. lia. Qed.
Lemma in_without {A} j (l : list A) x : In x (without j l) -> In x l.
Proof.
  unfold without. intros X. apply in_app_or in X. destruct X as [X|X].
  - rewrite <- (firstn_skipn j l). apply in_or_app. left. exact X.
  - rewrite <- (firstn_skipn (S j) l). apply in_or_app. right. exact X.
Qed.
Theorem c113_missing_refuted : forall parse show D by_delimiter sniff reader content delimiter bytes data c j,
  readable parse show (concat data) -> data <> [] -> even (S (S (S c))) data -> (j < S (S (S c)))%nat ->
  (reader (by_delimiter delimiter) content = map (fun r => emptied j (map show r)) data ->
     exists t, read_csv parse D by_delimiter sniff reader content (Some delimiter) None bytes = Ok (Filled t) /\ holds t (map (without j) data) (S (S c))) /\
  (forall before row after, data = before ++ row :: after -> before ++ after <> [] ->
     reader (by_delimiter delimiter) content = map (map show) before ++ emptied j (map show row) :: map (map show) after ->
     read_csv parse D by_delimiter sniff reader content (Some delimiter) None bytes = Err ValueError).
Proof.
  intros parse show D byd sniff reader content delimiter bytes data c j R N V J.
  assert (Wi : forall row, In row data -> readable parse show (without j row)).
  { intros row I x X. apply R. apply in_concat. exists row. split; [exact I|]. exact (in_without j row x X). }
  assert (One : forall row, In row data -> List.length row = S (S (S c)) -> number_rows parse [emptied j (map show row)] = [without j row]).
  { intros row I L. pose proof (Wi row I) as Rw. cbn [number_rows]. rewrite (emptied_fields parse show row j c Rw L J), (parse_all_show parse show) by exact Rw. unfold emptied. destruct (firstn j (map show row)); reflexivity. }
  split.
  - intros E. unfold read_csv. cbn [bind]. rewrite E.
    assert (Q : number_rows parse (map (fun r => emptied j (map show r)) data) = map (without j) data).
    { clear E N Wi R. induction V as [|r data L V IH]; [reflexivity|]. cbn [map]. change (emptied j (map show r) :: map (fun r => emptied j (map show r)) data) with ([emptied j (map show r)] ++ map (fun r => emptied j (map show r)) data).
      rewrite number_rows_app, IH by (intros row I; apply One; right; exact I). rewrite (One r (or_introl eq_refl) L). reflexivity. }
    rewrite Q. apply to_table_even; [|destruct data; [contradiction|discriminate]]. apply Forall_map. eapply Forall_impl; [|exact V]. intros r L. cbn beta in *. rewrite without_length by (rewrite L; exact J). rewrite L. lia.
  - intros before row after -> Nb E. unfold read_csv. cbn [bind]. rewrite E. change (emptied j (map show row) :: map (map show) after) with ([emptied j (map show row)] ++ map (map show) after).
    apply Forall_app in V. destruct V as [V1 V2]. inversion V2; subst. rewrite !number_rows_app, (One row) by (try assumption; apply in_or_app; right; left; reflexivity).
    assert (Nn : forall l, Forall (fun r : list flt => List.length r = S (S (S c))) l -> Forall (fun r => r <> []) l) by (intros l F; eapply Forall_impl; [|exact F]; intros r L; destruct r; [discriminate L|discriminate]).
    assert (Rb : readable parse show (concat before) /\ readable parse show (concat after)).
    { rewrite concat_app in R. cbn [concat] in R. apply readable_app in R. destruct R as [Ra R]. apply readable_app in R. split; [exact Ra|apply R]. }
    destruct Rb as [Rb Ra]. rewrite (number_rows_show parse show before Rb), (number_rows_show parse show after Ra) by (apply Nn; assumption).
    assert (Lw : List.length (without j row) = S (S c)) by (rewrite without_length by (rewrite H1; exact J); rewrite H1; lia).
    destruct before as [|x before].
    + destruct after as [|x after]; [contradiction|]. apply (to_table_uneven _ (without j row) x); [left; reflexivity|right; left; reflexivity|]. inversion H2; subst. rewrite Lw, H3. lia.
    + apply (to_table_uneven _ (without j row) x); [apply in_or_app; right; left; reflexivity|left; reflexivity|]. inversion V1; subst. rewrite Lw, H3. lia.
Qed.
Print Assumptions c113_missing_refuted.

(** Refuted: empty lines do no harm. A line of spaces, or of delimiters only, is an error if there are numbers. *)
Theorem c113_blank_refuted : forall parse D by_delimiter sniff reader content delimiter bytes rows blank_row row v x,
  reader (by_delimiter delimiter) content = rows -> In blank_row rows -> In row rows -> row <> [] -> numbers_of parse row (x :: v) ->
  ((exists s, blank_row = [s] /\ spaces s) \/ (blank_row <> [] /\ (exists s s' l, blank_row = s :: s' :: l) /\ Forall (fun s => s = EmptyString) blank_row)) ->
  read_csv parse D by_delimiter sniff reader content (Some delimiter) None bytes = Err ValueError.
Proof.
  intros parse D byd sniff reader content delimiter bytes rows br row v x E Ib Ir Nr V B. unfold read_csv. cbn [bind]. rewrite E.
  assert (In1 : forall r u, In r rows -> r <> [] -> parse_all parse (fields r) = Some u -> In u (number_rows parse rows)).
  { clear. intros r u I N P. apply in_split in I. destruct I as (a & b & ->). rewrite number_rows_app. apply in_or_app. right. cbn [number_rows]. destruct r; [contradiction|]. rewrite P. left. reflexivity. }
  apply (to_table_uneven _ [] (x :: v)); [|apply (In1 row); [exact Ir|exact Nr|apply fields_spec; exact V]|discriminate].
  destruct B as [(s & -> & S)|(N & (s & s' & l & ->) & F)].
  - apply (In1 [s]); [exact Ib|discriminate|]. cbn [fields]. rewrite words_blank by exact S. reflexivity.
  - apply (In1 (s :: s' :: l)); [exact Ib|discriminate|]. cbn [fields]. replace (filter nonempty (s :: s' :: l)) with (@nil string); [reflexivity|]. symmetry.
    clear -F. induction F as [|y m Y F IH]; [reflexivity|]. subst. cbn. exact IH.
Qed.
Print Assumptions c113_blank_refuted.

(** Refuted: a file without numbers is an error. It makes a surface with an empty profile. *)
Theorem c113_no_numbers_refuted : forall parse D by_delimiter sniff reader content delimiter bytes a f,
  Forall (fun row => row = [] \/ exists w, In w (fields row) /\ parse w = None) (reader (by_delimiter delimiter) content) ->
  p_file a = Some f -> p_profile a = None -> p_shape a = None -> p_extent a = None -> f_ext f = ".csv"%string ->
  f_text f = read_csv parse D by_delimiter sniff reader content (Some delimiter) None bytes ->
  snd (construct a) = Ok tt /\ heights (fst (construct a)) = Some Empty.
Proof.
  intros parse D byd sniff reader content delimiter bytes a f F Pf Pp Ps Pe X T. unfold read_csv in T. cbn [bind] in T.
  assert (E : number_rows parse (reader (byd delimiter) content) = []).
  { clear T. induction F as [|row rows [->|(w & I & P)] F IH]; [reflexivity|exact IH|]. exact (eq_trans (c113_header parse [] row rows w I P) IH). }
  rewrite E in T. unfold construct, base_init. rewrite Pf, Pp, Ps, Pe. cbn [given orb]. rewrite andb_false_r. cbn [andthen snd fst]. unfold load. rewrite X. cbn [String.eqb Ascii.eqb Bool.eqb orb]. rewrite T. cbn.
  destruct (p_spacing a); cbn; auto.
Qed.
Print Assumptions c113_no_numbers_refuted.

(** ** The constructor *)
Lemma spaced_put t h g d : shape g = Some (t_rows t, t_cols t) -> prof g = Some (t_rows t, t_cols t) ->
  put_spacing (Surf g (Some (Filled t)) d) h =
  (Surf (Geom (Some (INR (t_rows t) * h, INR (t_cols t) * h)) (Some (t_rows t, t_cols t)) (Some h) (Some (t_rows t, t_cols t))) (Some (Filled t)) d, Ok tt).
Proof. intros S P. unfold put_spacing, set_spacing. cbn [heights geometry]. rewrite P, S. reflexivity. Qed.
(** A profile with a spacing, and without. *)
Theorem c113_array : forall t h,
  (let r := construct (Args (Some t) (Some h) None None None None None) in snd r = Ok tt /\ spaced_surface (fst r) t h) /\
  (let r := construct (Args (Some t) None None None None None None) in snd r = Ok tt /\ bare_surface (fst r) t).
Proof.
  intros t h. split; cbv zeta; unfold construct, base_init; cbn [p_profile p_file p_shape p_spacing p_extent given orb andb].
  - unfold put_profile. cbn. split; [reflexivity|]. repeat split; reflexivity.
  - cbn. split; [reflexivity|]. repeat split; reflexivity.
Qed.
Print Assumptions c113_array.
(** A profile with an extent: the spacing is that of the first direction; extents with another aspect ratio are refused. *)
Theorem c113_extent : forall t ex ey, (0 < t_rows t)%nat -> (0 < t_cols t)%nat -> ey <> 0 ->
  let r := construct (Args (Some t) None None (Some (ex, ey)) None None None) in
  (Rabs (ex / ey - INR (t_rows t) / INR (t_cols t)) <= 1 / 10000 ->
     snd r = Ok tt /\ heights (fst r) = Some (Filled t) /\ spacing (geometry (fst r)) = Some (ex / INR (t_rows t)) /\ extent (geometry (fst r)) = Some (ex, ey)) /\
  (1 / 10000 < Rabs (ex / ey - INR (t_rows t) / INR (t_cols t)) -> snd r = Err ValueError).
Proof.
  intros t ex ey R0 C0 Ey r. assert (Rn : INR (t_rows t) <> 0) by (apply not_0_INR; lia). assert (Cn : INR (t_cols t) <> 0) by (apply not_0_INR; lia).
  unfold r, construct, base_init. cbn [p_profile p_file p_shape p_spacing p_extent given orb andb].
  unfold put_profile. cbn [geometry blank_surface set_prof new_geom spacing extent fst snd andthen heights is_discrete].
  unfold put_extent. cbn [heights geometry]. unfold set_extent. cbn [prof shape fst snd]. unfold rn.
  rewrite (proj2 (Reqb_false _ _) Cn), (proj2 (Reqb_false _ _) Ey). cbn [orb]. unfold aspect_differs.
  split; intros A.
  - rewrite (proj2 (Rltb_false _ _)) by lra. rewrite (proj2 (Reqb_false _ _) Rn). cbn. auto.
  - rewrite (proj2 (Rltb_true _ _)) by exact A. reflexivity.
Qed.
Print Assumptions c113_extent.
(** What is refused. *)
Theorem c113_refused : forall a,
  (p_profile a <> None \/ p_file a <> None) ->
  (p_shape a <> None \/ (p_spacing a <> None /\ p_extent a <> None) \/ (p_profile a <> None /\ p_file a <> None)) -> snd (construct a) = Err ValueError.
Proof.
  intros a P Q. unfold construct. destruct (p_profile a) as [t|], (p_file a) as [f|]; try (destruct P; contradiction); cbn [given orb]; destruct (p_shape a); try reflexivity; cbn [given];
    destruct (p_spacing a), (p_extent a); cbn [given andb]; try reflexivity; try (destruct Q as [Q|[[Q1 Q2]|[Q1 Q2]]]; contradiction); cbn; reflexivity.
Qed.
Print Assumptions c113_refused.
(** Files are told apart by the end of their name, in lower case; all others are refused. *)
Theorem c113_extension : forall a f, p_file a = Some f -> ~ In (f_ext f) [".mat"; ".al3d"; ".txt"; ".csv"]%string -> snd (construct a) = Err ValueError.
Proof.
  intros a f F N. unfold construct. rewrite F. rewrite orb_true_r. destruct (p_shape a); [reflexivity|]. cbn [given]. destruct (given (p_spacing a) && given (p_extent a))%bool; [reflexivity|].
  destruct (p_profile a) as [t|]; [reflexivity|]. cbn [given andthen snd fst]. unfold load.
  assert (E : forall s, In s [".mat"; ".al3d"; ".txt"; ".csv"]%string -> String.eqb (f_ext f) s = false).
  { intros s I. apply String.eqb_neq. intros E. apply N. rewrite E. exact I. }
  rewrite !E by (cbn; auto). reflexivity.
Qed.
Print Assumptions c113_extension.
(** Profiles from text files with a spacing. *)
Theorem c113_text : forall f t h, f_ext f = ".csv"%string \/ f_ext f = ".txt"%string -> f_text f = Ok (Filled t) ->
  (let r := construct (Args None (Some h) None None (Some f) None None) in snd r = Ok tt /\ spaced_surface (fst r) t h) /\
  (let r := construct (Args None None None None (Some f) None None) in snd r = Ok tt /\ bare_surface (fst r) t).
Proof.
  intros f t h X T. assert (L : forall a s, load f a s = put_profile s (Filled t)) by (intros a s; unfold load; destruct X as [->| ->]; cbn; rewrite T; reflexivity).
  split; cbv zeta; unfold construct; cbn [p_profile p_file p_shape p_spacing p_extent given orb andb andthen snd fst]; rewrite L; cbn; (split; [reflexivity|]); repeat split; reflexivity.
Qed.
Print Assumptions c113_text.
(** The spacing of an .al3d file is the one in the file, unless one is given. *)
Theorem c113_al3d : forall f t pixel spacing, f_ext f = ".al3d"%string -> f_depths f = Some t -> f_pixel f = Some pixel ->
  let r := construct (Args None spacing None None (Some f) None None) in
  snd r = Ok tt /\ spaced_surface (fst r) t (match spacing with Some h => h | None => pixel end).
Proof.
  intros f t pixel spacing X T P r. unfold r, construct. cbn [p_profile p_file p_shape p_spacing p_extent given orb andb andthen snd fst].
  rewrite andb_false_r. cbn [andthen snd fst]. unfold load. rewrite X. cbn [String.eqb Ascii.eqb Bool.eqb]. unfold read_al3d. rewrite T, P. cbn. destruct spacing as [h|]; cbn; (split; [reflexivity|]); repeat split; reflexivity.
Qed.
Print Assumptions c113_al3d.
(** .mat files: the variable with the name given, or profile; the spacing with its name, unless one is given. *)
Theorem c113_mat : forall f t name sname chosen g h, f_ext f = ".mat"%string ->
  dget (match name with Some n => n | None => "profile"%string end) (f_mat f) = Some t ->
  (match sname with Some n => dget n (f_mat f) = Some g /\ t_rows g = 1%nat /\ t_cols g = 1%nat /\ t_at g 0 0 = Fin h | None => True end) ->
  let r := construct (Args None chosen None None (Some f) name sname) in
  snd r = Ok tt /\
  match chosen, sname with
  | Some h', _ => spaced_surface (fst r) t h'
  | None, Some _ => spaced_surface (fst r) t h
  | None, None => bare_surface (fst r) t
  end.
Proof.
  intros f t name sname chosen g h X T G r. unfold r, construct. cbn [p_profile p_file p_shape p_spacing p_extent given orb andb andthen snd fst].
  rewrite andb_false_r. cbn [andthen snd fst]. unfold load. rewrite X. cbn [String.eqb Ascii.eqb Bool.eqb p_mat_profile p_mat_spacing]. unfold read_mat.
  destruct sname as [n|].
  - destruct G as (G & R1 & C1 & V). rewrite G. unfold as_spacing. rewrite R1, C1, V. cbn [Nat.eqb andb]. cbn [put_spacing heights geometry blank_surface set_spacing new_geom prof extent shape andthen snd fst]. rewrite T.
    cbn [put_profile set_prof geometry spacing extent heights is_discrete fst snd andthen]. unfold base_init. cbn [p_spacing p_extent p_shape].
    destruct chosen as [h'|]; cbn; (split; [reflexivity|]); repeat split; try reflexivity. unfold spaced_surface. cbn. unfold rn. rewrite !(Rmult_comm h). reflexivity.
  - cbn [andthen snd fst]. rewrite T. cbn. destruct chosen as [h'|]; cbn; (split; [reflexivity|]); repeat split; reflexivity.
Qed.
Print Assumptions c113_mat.
Theorem c113_mat_missing : forall a f, p_file a = Some f -> p_profile a = None -> p_mat_spacing a = None -> f_ext f = ".mat"%string ->
  dget (match p_mat_profile a with Some n => n | None => "profile"%string end) (f_mat f) = None -> snd (construct a) = Err ValueError.
Proof.
  intros a f F P S X N. unfold construct. rewrite F, P. cbn [given orb]. destruct (p_shape a); [reflexivity|]. cbn [given]. destruct (given (p_spacing a) && given (p_extent a))%bool; [reflexivity|].
  cbn [andthen snd fst]. unfold load. rewrite X. cbn [String.eqb Ascii.eqb Bool.eqb]. unfold read_mat. rewrite S. cbn [andthen snd fst]. rewrite N. reflexivity.
Qed.
Print Assumptions c113_mat_missing.
(** Refuted: a single variable is the profile, and a variable grid_spacing is read, without names as documented. *)
Theorem c113_mat_refuted : forall f t g n, f_ext f = ".mat"%string ->
  (n <> "profile"%string -> f_mat f = [(n, t)] -> snd (construct (Args None None None None (Some f) None None)) = Err ValueError) /\
  (f_mat f = [("profile"%string, t); ("grid_spacing"%string, g)] ->
     let r := construct (Args None None None None (Some f) None None) in snd r = Ok tt /\ bare_surface (fst r) t).
Proof.
  intros f t g n X. split.
  - intros N M. apply (c113_mat_missing _ f); try reflexivity; [exact X|]. cbn. rewrite M. cbn [dget]. destruct (String.eqb "profile" n) eqn:E; [apply String.eqb_eq in E; congruence|reflexivity].
  - intros M. apply (c113_mat f t None None None g 0 X); [rewrite M; reflexivity|exact I].
Qed.
Print Assumptions c113_mat_refuted.
(** Refuted: a surface is marked as discrete only with a profile. *)
Theorem c113_discrete_refuted : forall a, p_profile a = None -> p_file a = None -> snd (construct a) = Ok tt ->
  is_discrete (fst (construct a)) = true /\ heights (fst (construct a)) = None.
Proof.
  intros a P F H. unfold construct in *. rewrite P, F in *. cbn [given orb] in *. unfold base_init in *.
  assert (Sp : forall s h, heights s = None -> heights (fst (put_spacing s h)) = None /\ is_discrete (fst (put_spacing s h)) = is_discrete s).
  { intros s h N. unfold put_spacing. rewrite N. destruct (set_spacing (geometry s) h). auto. }
  assert (Ex : forall s e, heights s = None -> heights (fst (put_extent s e)) = None /\ is_discrete (fst (put_extent s e)) = is_discrete s).
  { intros s h N. unfold put_extent. rewrite N. destruct (set_extent (geometry s) h). auto. }
  assert (Sh : forall s n, heights s = None -> heights (fst (put_shape s n)) = None /\ is_discrete (fst (put_shape s n)) = is_discrete s).
  { intros s h N. unfold put_shape. rewrite N. destruct (set_shape (geometry s) h). auto. }
  assert (An : forall x (k : surface -> surface * result unit), (heights (fst x) = None /\ is_discrete (fst x) = true) ->
     (forall s, heights s = None -> is_discrete s = true -> heights (fst (k s)) = None /\ is_discrete (fst (k s)) = true) -> heights (fst (andthen x k)) = None /\ is_discrete (fst (andthen x k)) = true).
  { intros [s r] k [A B] K. unfold andthen. cbn [snd fst] in *. destruct r; [apply K; assumption|auto]. }
  set (s0 := Surf (geometry blank_surface) (heights blank_surface) true) in *.
  assert (G : forall x, x = andthen (match p_spacing a with Some h => put_spacing s0 h | None => (s0, Ok tt) end) (fun s => andthen (match p_extent a with Some e => put_extent s e | None => (s, Ok tt) end) (fun s => match p_shape a with Some n => put_shape s n | None => (s, Ok tt) end)) ->
    is_discrete (fst x) = true /\ heights (fst x) = None).
  { intros x ->. apply and_comm. apply An.
    - destruct (p_spacing a) as [h|]; [destruct (Sp s0 h eq_refl) as [A B]; rewrite A, B; auto|auto].
    - intros s A B. apply An.
      + destruct (p_extent a) as [e|]; [destruct (Ex s e A) as [A2 B2]; rewrite A2, B2; auto|auto].
      + intros s' A' B'. destruct (p_shape a) as [n|]; [destruct (Sh s' n A') as [A2 B2]; rewrite A2, B2; auto|auto]. }
  destruct (p_spacing a), (p_extent a), (p_shape a); try (apply G; reflexivity). discriminate H.
Qed.
Print Assumptions c113_discrete_refuted.

(** A grid spacing, an extent and a shape at once are refused, and nothing of them is kept. *)
Theorem c113_three : forall a h e n, p_spacing a = Some h -> p_extent a = Some e -> p_shape a = Some n ->
  snd (construct a) = Err ValueError /\ geometry (fst (construct a)) = new_geom /\ heights (fst (construct a)) = None.
Proof.
  intros a h e n S X N. unfold construct. rewrite S, X, N. cbn [given andb]. destruct (given (p_profile a) || given (p_file a)); [auto|]. unfold base_init. rewrite S, X, N. auto.
Qed.
Print Assumptions c113_three.
(** A .al3d file without depths, or without the size of a pixel, is refused; in the second case the profile has been set. *)
Theorem c113_al3d_missing : forall a f, p_file a = Some f -> p_profile a = None -> p_shape a = None -> (p_spacing a = None \/ p_extent a = None) -> f_ext f = ".al3d"%string ->
  (f_depths f = None -> snd (construct a) = Err KeyError /\ heights (fst (construct a)) = None) /\
  (forall t, f_depths f = Some t -> f_pixel f = None -> snd (construct a) = Err KeyError /\ heights (fst (construct a)) = Some (Filled t)).
Proof.
  intros a f Pf Pp Ps Pe X. assert (C : construct a = andthen (read_al3d (f_depths f) (f_pixel f) blank_surface) (base_init a)).
  { unfold construct. rewrite Pf, Pp, Ps. cbn [given orb andthen snd fst]. assert (G : given (p_spacing a) && given (p_extent a) = false) by (destruct Pe as [-> | ->]; cbn; [|rewrite andb_false_r]; reflexivity).
    rewrite G. unfold load. rewrite X. reflexivity. }
  rewrite C. split; [intros D; rewrite D; auto|]. intros t D P. rewrite D, P. cbn. auto.
Qed.
Print Assumptions c113_al3d_missing.
Example c113_al3d_missing_case : exists a f, p_file a = Some f /\ p_profile a = None /\ p_shape a = None /\ p_extent a = None /\ f_ext f = ".al3d"%string /\ f_pixel f = None /\ f_depths f <> None.
Proof.
  pose (f := File ".al3d" [] (Some (Table 2 2 (fun i j => Fin (INR (i + j))))) None (Ok Empty)). exists (Args None None None None (Some f) None None), f. cbn. repeat split. discriminate.
Qed.
(** ** Cases *)
Definition read_digit (s : string) : option flt := if String.eqb s "1" then Some (Fin 1) else if String.eqb s "2" then Some (Fin 2) else None.
Definition lines : list (list string) := [["height"; "of"]; ["1"; "2"]; []; ["1 2"]; ["n/a"; "2"]; ["2"; ""; "2"]]%string.
Example c113_rows_case : number_rows read_digit lines = [[Fin 1; Fin 2]; [Fin 1; Fin 2]; [Fin 2; Fin 2]] /\
  exists t, to_table (number_rows read_digit lines) = Ok (Filled t) /\ t_rows t = 3%nat /\ t_cols t = 2%nat /\ t_at t 2 0 = Fin 2.
Proof. split; [reflexivity|]. eexists. split; [reflexivity|]. repeat split; reflexivity. Qed.
Example c113_spaced_case : apart [("12", " "); ("3.5", "	 "); ("x", "")]%string /\ words "12 3.5	 x" = ["12"; "3.5"; "x"]%string.
Proof. split; [|reflexivity]. cbn. repeat split; unfold white; cbn; intuition discriminate. Qed.
Example c113_readable_case : let show := fun x : flt => match x with Fin r => if Reqb r 1 then "1" else "2" | _ => EmptyString end%string in
  readable read_digit show (concat [[Fin 1; Fin 2]; [Fin 2; Fin 2]]) /\ even 2 [[Fin 1; Fin 2]; [Fin 2; Fin 2]] /\ read_digit "n/a" = None.
Proof.
  cbv zeta. assert (A : Reqb 1 1 = true) by (apply Reqb_true; reflexivity). assert (B : Reqb 2 1 = false) by (apply Reqb_false; lra).
  refine (conj _ (conj _ eq_refl)); [|repeat constructor].
  intros x [<-|[<-|[<-|[<-|[]]]]]; rewrite ?A, ?B; cbn; repeat split; unfold white; cbn; intuition discriminate.
Qed.
Example c113_discrete_case : snd (construct (Args None (Some 1) (Some (2, 3)%nat) None None None None)) = Ok tt.
Proof. reflexivity. Qed.
Example c113_files_case : exists f t g, f_ext f = ".mat"%string /\ dget "profile" (f_mat f) = Some t /\ dget "step" (f_mat f) = Some g /\ t_rows t = 3%nat /\ t_at g 0 0 = Fin 2 /\
  extent (geometry (fst (construct (Args None None None None (Some f) None (Some "step"%string))))) = Some (INR 3 * 2, INR 4 * 2).
Proof.
  pose (t := Table 3 4 (fun i j => Fin (INR (i + j)))). pose (g := Table 1 1 (fun _ _ => Fin 2)). pose (f := File ".mat" [("step"%string, g); ("profile"%string, t)] None None (Ok Empty)).
  exists f, t, g. do 5 (split; [reflexivity|]).
  pose proof (c113_mat f t None (Some "step"%string) None g 2 eq_refl eq_refl (conj eq_refl (conj eq_refl (conj eq_refl eq_refl)))) as [_ (_ & G & _)]. rewrite G. reflexivity.
Qed.
Example c113_extent_case : Rabs (6 / 8 - INR 3 / INR 4) <= 1 / 10000.
Proof. replace (6 / 8 - INR 3 / INR 4) with 0; [rewrite Rabs_R0; lra|]. cbn [INR]. field. Qed.
