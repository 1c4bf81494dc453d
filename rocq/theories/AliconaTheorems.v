(** Theorems on the reader of Alicona files: C68 (columns) and C105. *)
From Coq Require Import List Bool ZArith Ascii String Lia.
From Verif Require Import Py FileNumModel FileNumProofs TstModel TstSpec TstProofs TstRoundProofs AliconaModel AliconaSpec AliconaProofs.
Import ListNotations.
Local Open Scope Z_scope.

(** C68: the number of columns of a file without a texture, where rows of [stride] values of four bytes fill the file
    from the depth offset to the end. *)
Theorem c68_depth_columns (depth_offset rows stride : Z) : 0 < rows -> depth_cols (depth_offset + 4 * rows * stride) depth_offset 0 rows = Good stride.
Proof.
  intro R0. unfold depth_cols. destruct (Z.eqb_spec rows 0); [lia|]. cbn [Z.eqb]. replace (depth_offset + 4 * rows * stride - depth_offset) with (stride * (4 * rows)) by ring. now rewrite round_div_exact by lia.
Qed.
(** With a texture straight after the depth data it is always too large: the offsets are added. *)
Theorem c68_depth_columns_refuted (size depth_offset rows stride : Z) : 0 < rows -> 0 <= stride -> rows < depth_offset ->
  exists cols, depth_cols size depth_offset (depth_offset + 4 * rows * stride) rows = Good cols /\ stride < cols.
Proof.
  intros R0 S0 D0. unfold depth_cols. destruct (Z.eqb_spec rows 0); [lia|]. destruct (Z.eqb_spec (depth_offset + 4 * rows * stride) 0); [nia|]. eexists. split; [reflexivity|].
  set (p := _ - - _). pose proof (round_div_near p (4 * rows) ltac:(lia)) as N. set (c := round_div _ _) in *. clearbody c. unfold p in N. nia.
Qed.

Section Reader.
Context {F Img : Type}.
Variable parse_float : text -> option F.
Variable trunc : F -> option Z.
Variable invalid : @tag F -> text -> bool.
Variable image : text -> option Img.
Notation alicona_read := (alicona_read parse_float trunc invalid image).

(** C105: the type ends at a zero byte, or at the end of its line if there is none. *)
Theorem c105_type (t pad rest : text) : ~ In zero t -> ~ In newline t -> ~ In newline pad ->
  read_header parse_float (t ++ [newline] ++ rest) = read_header parse_float (t ++ [zero] ++ pad ++ [newline] ++ rest).
Proof.
  intros Z N P. unfold read_header. rewrite (readline_at t rest) by exact N. rewrite !app_assoc, <- (app_assoc _ [newline] rest), readline_at.
  2:{ rewrite in_app_iff. intros [I|I]; [|exact (P I)]. apply in_app_or in I. destruct I as [I|[I|[]]]; [exact (N I)|discriminate I]. }
  assert (A : before_zero (t ++ [newline]) = None).
  { clear -Z. induction t as [|c t IH]; [reflexivity|]. cbn [app before_zero]. destruct (Ascii.eqb_spec c zero) as [->|_]; [exfalso; apply Z; left; reflexivity|]. rewrite IH; [reflexivity|]. intro I. apply Z. right. exact I. }
  replace (type_part (t ++ [newline])) with t by (unfold type_part; rewrite A, removelast_last; reflexivity).
  replace (type_part (((t ++ [zero]) ++ pad) ++ [newline])) with t by (unfold type_part; rewrite <- !app_assoc, before_zero_at by exact Z; reflexivity).
  reflexivity.
Qed.
Print Assumptions c105_type.

(** The header of a file, whatever comes after it. *)
Definition al_header_right (a : al_file) : Prop :=
  clean (a_type a) /\ 0 <= a_version a /\ clean (a_comment a) /\
  Forall (fun kv => clean (fst kv) /\ (List.length (fst kv) <= 20)%nat /\ clean (snd kv) /\ fst kv <> txt "Comment") (a_tags a).
Lemma header_tags eol (a : al_file) rest : is_eol eol -> al_header_right a ->
  exists d, read_header parse_float (al_header eol a ++ rest) = Good d /\
    (forall k t, last_tag k (a_tags a) = Some t -> get (Some k) d = Some (tag_of parse_float (t ++ eol))) /\
    get (Some (txt "Comment")) d = Some (TStr (a_comment a ++ eol)) /\
    (last_tag (txt "Type") (a_tags a) = None -> get (Some (txt "Type")) d = Some (TStr (a_type a))) /\
    (last_tag (txt "Version") (a_tags a) = None -> get (Some (txt "Version")) d = Some (TInt (a_version a))).
Proof. intros E (T0 & V0 & C0 & FK). now apply header_read_al. Qed.
Lemma tag_item_int eol (a : al_file) (d : @tags F) k z : is_eol eol -> (forall k t, last_tag k (a_tags a) = Some t -> get (Some k) d = Some (tag_of parse_float (t ++ eol))) ->
  tag_number k a z -> tag_item k d = Good (TInt z) /\ offset k d = Good z.
Proof. intros E H (t & L & P). unfold offset, tag_item. rewrite (H _ _ L), (tag_of_int parse_float t eol z E P). split; reflexivity. Qed.
Lemma split_count c t : List.length (split c t) = S (count_occ ascii_dec t c).
Proof.
  induction t as [|x t IH]; [reflexivity|]. cbn [split count_occ]. destruct (ascii_dec x c) as [->|N]; [rewrite Ascii.eqb_refl; cbn; now rewrite IH|].
  destruct (Ascii.eqb_spec x c); [contradiction|]. destruct (split c t); [discriminate|exact IH].
Qed.

(** C105: a file without icon and texture is read: the tags of the header as they are written (numbers where the text is
    a number), and the depths row by row, without the values that fill up the rows, and not a number for every invalid
    value. *)
Theorem c105_depth (eol name ext : text) (a : al_file) (stride cols : nat) (bad : text) : is_eol eol -> ~ In "."%char name -> ~ In "."%char ext ->
  al_right eol a stride cols -> last_tag (txt "InvalidPixelValue") (a_tags a) = Some bad ->
  exists c, alicona_read (name ++ ["."%char] ++ ext) (al_text eol a) = Good c /\
    (forall k t, last_tag k (a_tags a) = Some t -> get (Some k) (header c) = Some (tag_of parse_float (t ++ eol))) /\
    (last_tag (txt "Type") (a_tags a) = None -> get (Some (txt "Type")) (header c) = Some (TStr (a_type a))) /\
    (last_tag (txt "Version") (a_tags a) = None -> get (Some (txt "Version")) (header c) = Some (TInt (a_version a))) /\
    depth_data c = Some (map (fun row => firstn cols (map (fun b => if invalid (tag_of parse_float (bad ++ eol)) b then NotANumber else Value b) row)) (a_depth a)).
Proof.
  intros E N1 N2 (T0 & V0 & C0 & FK & (iz & IO & IZ) & TO & RO & CO & DO & NE & S0 & FD) B.
  destruct (header_tags eol a (List.concat (map (fun row => List.concat row) (a_depth a))) E ltac:(now repeat split)) as (d & RH & G & _ & GT & GV).
  assert (RN : (0 < List.length (a_depth a))%nat) by (destruct (a_depth a); [easy|cbn; lia]).
  assert (F4 : Forall (fun c => List.length c = 4%nat) (List.concat (a_depth a))).
  { clear - FD. induction FD as [|r rs [_ H] FD IH]; [constructor|]. cbn. now apply Forall_app. }
  assert (FS : Forall (fun r => List.length r = stride) (a_depth a)) by (eapply Forall_impl; [|exact FD]; cbn; tauto).
  assert (LC : List.length (List.concat (a_depth a)) = (List.length (a_depth a) * stride)%nat) by now apply concat_length_2.
  assert (LD : List.length (List.concat (map (fun row => List.concat row) (a_depth a))) = (List.length (a_depth a) * stride * 4)%nat) by (rewrite concat_map_concat, (concat_length 4) by exact F4; now rewrite LC).
  set (h := al_header eol a) in *. set (n := List.length (a_depth a)) in *.
  pose proof (fun k z => tag_item_int eol a d k z E G) as TI.
  unfold alicona_read, split_name. rewrite (split_at "." name) by exact N1. rewrite split_no by exact N2. cbn [bindr]. unfold al_text. fold h. rewrite RH. cbn [bindr].
  rewrite (proj2 (TI _ _ IO)). cbn [bindr]. destruct (Z.ltb_spec 0 iz); [lia|].
  unfold rows_of. rewrite (proj1 (TI _ _ RO)). cbn [bindr]. destruct (Z.ltb_spec (Z.of_nat n) 0); [lia|]. cbn [bindr].
  rewrite (proj2 (TI _ _ DO)). cbn [bindr]. rewrite (proj2 (TI _ _ TO)). cbn [bindr].
  assert (HL : (0 < List.length h)%nat). { unfold h, al_header. rewrite !app_length. cbn. lia. }
  destruct (Z.ltb_spec 0 (Z.of_nat (List.length h))); [|lia].
  replace (Z.of_nat (List.length (h ++ List.concat (map (fun row => List.concat row) (a_depth a))))) with (Z.of_nat (List.length h) + 4 * Z.of_nat n * Z.of_nat stride) by (rewrite app_length, LD; lia).
  rewrite c68_depth_columns by lia. cbn [bindr]. unfold read_depth. destruct (Z.leb_spec (Z.of_nat stride) 0); [lia|]. rewrite Nat2Z.id.
  assert (BY : firstn (Z.to_nat (Z.of_nat n * Z.of_nat stride * 4)) (skipn (List.length h) (h ++ List.concat (map (fun row => List.concat row) (a_depth a)))) = List.concat (List.concat (a_depth a))).
  { rewrite skipn_app, Nat.sub_diag, skipn_all2 by lia. cbn [skipn app]. rewrite firstn_all2 by (rewrite LD; lia). apply concat_map_concat. }
  rewrite BY. assert (LB : List.length (List.concat (List.concat (a_depth a))) = (n * stride * 4)%nat) by (now rewrite <- concat_map_concat).
  rewrite LB, Nat.mod_mul, Nat.div_mul by lia. cbn [Nat.eqb negb]. unfold tag_item at 1. rewrite (G _ _ B). cbn [bindr].
  replace (Z.to_nat (Z.of_nat n * Z.of_nat stride)) with (n * stride)%nat by lia. rewrite Nat.eqb_refl. cbn [negb]. rewrite (proj1 (TI _ _ CO)). cbn [bindr].
  destruct (Z.leb_spec 0 (Z.of_nat cols)); [|lia]. cbn [Z.ltb Z.compare]. eexists. split; [reflexivity|]. cbn [header depth_data].
  split; [exact G|]. split; [exact GT|]. split; [exact GV|]. f_equal. rewrite !Nat2Z.id.
  rewrite <- LC. rewrite <- (app_nil_r (List.concat (List.concat (a_depth a)))), groups_concat by exact F4. rewrite concat_map.
  unfold n. set (g := fun b => if invalid _ b then NotANumber else Value b). rewrite <- (map_length (map g) (a_depth a)), chunks_concat.
  - rewrite map_map. reflexivity.
  - apply Forall_map. eapply Forall_impl; [|exact FS]. intros r HR. cbn beta. now rewrite map_length.
Qed.
(** With carriage returns at the ends of the lines, every tag that isn't a number keeps one: no text of such a header is
    the text that was written. *)
Theorem c105_text_refuted (name ext : text) (a : al_file) (stride cols : nat) (bad k t : text) : let eol := [ascii_of_N 13] in ~ In "."%char name -> ~ In "."%char ext ->
  al_right eol a stride cols -> last_tag (txt "InvalidPixelValue") (a_tags a) = Some bad -> last_tag k (a_tags a) = Some t -> py_int t = None -> parse_float (t ++ eol) = None ->
  exists c, alicona_read (name ++ ["."%char] ++ ext) (al_text eol a) = Good c /\ get (Some k) (header c) = Some (TStr (t ++ eol)) /\ t ++ eol <> t.
Proof.
  intros eol N1 N2 A B K PI PF. destruct (c105_depth eol name ext a stride cols bad (or_intror eq_refl) N1 N2 A B) as (c & R0 & G & _). exists c. split; [exact R0|]. split.
  - rewrite (G _ _ K). unfold tag_of. rewrite py_int_eol by (now right). now rewrite PI, PF.
  - intro X. apply (f_equal (@List.length _)) in X. rewrite app_length in X. cbn in X. lia.
Qed.
(** Tags are whole numbers if they can be read as one, then floating point numbers, then text. *)
Theorem c105_values (eol name ext : text) (a : al_file) (stride cols : nat) (bad k t : text) : is_eol eol -> ~ In "."%char name -> ~ In "."%char ext ->
  al_right eol a stride cols -> last_tag (txt "InvalidPixelValue") (a_tags a) = Some bad -> last_tag k (a_tags a) = Some t ->
  exists c v, alicona_read (name ++ ["."%char] ++ ext) (al_text eol a) = Good c /\ get (Some k) (header c) = Some v /\
    (forall z, py_int t = Some z -> v = TInt z) /\
    (py_int t = None -> forall x, parse_float (t ++ eol) = Some x -> v = TFloat x) /\
    (py_int t = None -> parse_float (t ++ eol) = None -> v = TStr (t ++ eol)).
Proof.
  intros E N1 N2 A B K. destruct (c105_depth eol name ext a stride cols bad E N1 N2 A B) as (c & R0 & G & _). exists c, (tag_of parse_float (t ++ eol)). split; [exact R0|]. split; [exact (G _ _ K)|].
  unfold tag_of. rewrite py_int_eol by exact E. refine (conj _ (conj _ _)).
  - intros z ->. reflexivity.
  - intros -> x ->. reflexivity.
  - intros -> ->. reflexivity.
Qed.
Print Assumptions c105_values.
(** An icon inside the file, where the documentation says that it is read, makes every file unreadable. *)
Theorem c105_icon_refuted (eol name ext rest : text) (a : al_file) (z : Z) : is_eol eol -> ~ In "."%char name -> ~ In "."%char ext -> al_header_right a -> tag_number "IconOffset" a z -> 0 < z ->
  alicona_read (name ++ ["."%char] ++ ext) (al_header eol a ++ rest) = Raise (Py ValueError).
Proof.
  intros E N1 N2 A IO IZ. destruct (header_tags eol a rest E A) as (d & RH & G & _). unfold alicona_read, split_name. rewrite (split_at "." name), split_no by assumption. cbn [bindr]. rewrite RH. cbn [bindr].
  rewrite (proj2 (tag_item_int eol a d _ z E G IO)). cbn [bindr]. now destruct (Z.ltb_spec 0 z); [|lia].
Qed.
(** And so does a texture inside the file. *)
Theorem c105_texture_refuted (eol name ext rest : text) (a : al_file) (iz rows depth_offset texture_offset : Z) : is_eol eol -> ~ In "."%char name -> ~ In "."%char ext -> al_header_right a ->
  tag_number "IconOffset" a iz -> tag_number "Rows" a rows -> tag_number "DepthImageOffset" a depth_offset -> tag_number "TextureImageOffset" a texture_offset ->
  2 <= rows -> 0 < texture_offset -> 4 * rows <= depth_offset + texture_offset ->
  exists e, alicona_read (name ++ ["."%char] ++ ext) (al_header eol a ++ rest) = Raise (Py e).
Proof.
  intros E N1 N2 A IO RO DO TO R2 T1 T2. destruct (header_tags eol a rest E A) as (d & RH & G & _). unfold alicona_read, split_name. rewrite (split_at "." name), split_no by assumption. cbn [bindr]. rewrite RH. cbn [bindr].
  pose proof (fun k z => tag_item_int eol a d k z E G) as TI. set (f := al_header eol a ++ rest) in *. clearbody f. clear RH.
  rewrite (proj2 (TI _ _ IO)). cbn [bindr]. destruct (Z.ltb_spec 0 iz); [now exists ValueError|].
  unfold rows_of. rewrite (proj1 (TI _ _ RO)). cbn [bindr]. destruct (Z.ltb_spec rows 0); [lia|]. cbn [bindr]. rewrite (proj2 (TI _ _ DO)). cbn [bindr]. rewrite (proj2 (TI _ _ TO)). cbn [bindr].
  assert (TX : exists e, read_texture (T := option Img) (Z.of_nat (List.length f)) d rows texture_offset = Raise (Py e)).
  { unfold read_texture. destruct (match get (Some (txt "TexturePtr")) d with Some v => _ | None => _ end) as [p|e|] eqn:P; cbn [bindr].
    - destruct p as [z|x|s]; try (now exists TypeError). destruct (_ =? 0); [now exists ZeroDivisionError|]. destruct (Z.eqb_spec (Z.quot (Z.of_nat (List.length f) - texture_offset) (z * rows) * rows) 1); [|now exists ValueError]. exfalso. generalize dependent (Z.quot (Z.of_nat (List.length f) - texture_offset) (z * rows)). intros q Q. clear - Q R2. destruct (Z.le_gt_cases q 0); nia.
    - destruct (get (Some (txt "TexturePtr")) d); [discriminate|]. destruct (get (Some (txt "NumberOfPlanes")) d); [discriminate|]. inversion P. now exists NotImplementedError.
    - destruct (get (Some (txt "TexturePtr")) d); [discriminate|]. destruct (get (Some (txt "NumberOfPlanes")) d); discriminate. }
  assert (DP : (exists x, (if 0 <? depth_offset then bindr (depth_cols (Z.of_nat (List.length f)) depth_offset texture_offset rows) (fun cols => bindr (read_depth invalid f d rows cols depth_offset) (fun x => Good (Some x))) else Good None) = Good x) \/
    exists e, (if 0 <? depth_offset then bindr (depth_cols (Z.of_nat (List.length f)) depth_offset texture_offset rows) (fun cols => bindr (read_depth invalid f d rows cols depth_offset) (fun x => Good (Some x))) else Good None) = Raise (Py e)).
  { destruct (0 <? depth_offset) eqn:D0; [|left; now eexists]. apply Z.ltb_lt in D0. unfold depth_cols. destruct (Z.eqb_spec rows 0); [lia|]. destruct (Z.eqb_spec texture_offset 0); [lia|]. cbn [bindr].
    pose proof (round_div_near (texture_offset - - depth_offset) (4 * rows) ltac:(lia)) as N. set (cc := round_div _ _) in *. clearbody cc. unfold read_depth. destruct (Z.leb_spec cc 0); [nia|].
    destruct (negb _); [right; now exists ValueError|]. unfold tag_item. destruct (get (Some (txt "InvalidPixelValue")) d); cbn [bindr]; [|right; now exists KeyError].
    destruct (negb _); [right; now exists ValueError|]. destruct (get (Some (txt "Cols")) d) as [w|]; cbn [bindr]; [|right; now exists KeyError]. destruct w; [left; now eexists|right; now exists TypeError|right; now exists TypeError]. }
  destruct DP as [[x DP]|[e DP]].
  - match goal with |- context [if 0 <? depth_offset then ?u else ?v] => change (if 0 <? depth_offset then u else v) with (if 0 <? depth_offset then bindr (depth_cols (Z.of_nat (List.length f)) depth_offset texture_offset rows) (fun cols => bindr (read_depth invalid f d rows cols depth_offset) (fun x => Good (Some x))) else Good None) end.
    rewrite DP. cbn [bindr]. destruct (Z.ltb_spec 0 texture_offset); [|lia]. destruct TX as [e TX]. rewrite TX. now exists e.
  - exists e. match goal with |- context [if 0 <? depth_offset then ?u else ?v] => change (if 0 <? depth_offset then u else v) with (if 0 <? depth_offset then bindr (depth_cols (Z.of_nat (List.length f)) depth_offset texture_offset rows) (fun cols => bindr (read_depth invalid f d rows cols depth_offset) (fun x => Good (Some x))) else Good None) end.
    now rewrite DP.
Qed.
(** Offsets and a number of rows that are not numbers are refused. *)
Theorem c105_offset (eol name ext rest t : text) (a : al_file) : is_eol eol -> ~ In "."%char name -> ~ In "."%char ext -> al_header_right a ->
  py_int (t ++ eol) = None -> parse_float (t ++ eol) = None ->
  (last_tag (txt "IconOffset") (a_tags a) = Some t -> alicona_read (name ++ ["."%char] ++ ext) (al_header eol a ++ rest) = Raise (Py TypeError)) /\
  (forall iz rows, tag_number "IconOffset" a iz -> iz <= 0 -> tag_number "Rows" a rows -> 0 <= rows -> last_tag (txt "DepthImageOffset") (a_tags a) = Some t ->
     alicona_read (name ++ ["."%char] ++ ext) (al_header eol a ++ rest) = Raise (Py TypeError)) /\
  (forall iz, tag_number "IconOffset" a iz -> iz <= 0 -> last_tag (txt "Rows") (a_tags a) = Some t ->
     alicona_read (name ++ ["."%char] ++ ext) (al_header eol a ++ rest) = Raise (Py ValueError)).
Proof.
  intros E N1 N2 A P1 P2. destruct (header_tags eol a rest E A) as (d & RH & G & _).
  assert (T : tag_of parse_float (t ++ eol) = TStr (t ++ eol)) by (unfold tag_of; now rewrite P1, P2).
  unfold alicona_read, split_name. rewrite (split_at "." name), split_no by assumption. cbn [bindr]. rewrite RH. cbn [bindr]. split; [|split].
  - intros L. unfold offset, tag_item. now rewrite (G _ _ L), T.
  - intros iz rows IO IZ RO R0 L. rewrite (proj2 (tag_item_int eol a d _ iz E G IO)). cbn [bindr]. destruct (Z.ltb_spec 0 iz); [lia|].
    unfold rows_of. rewrite (proj1 (tag_item_int eol a d _ rows E G RO)). cbn [bindr]. destruct (Z.ltb_spec rows 0); [lia|]. cbn [bindr].
    unfold offset at 1, tag_item. now rewrite (G _ _ L), T.
  - intros iz IO IZ L. rewrite (proj2 (tag_item_int eol a d _ iz E G IO)). cbn [bindr]. destruct (Z.ltb_spec 0 iz); [lia|].
    unfold rows_of, tag_item. rewrite (G _ _ L), T. cbn [bindr]. now rewrite P1.
Qed.
Print Assumptions c105_offset.
(** A file name without a dot, or with more than one, is refused whatever is in the file. *)
Theorem c105_name (file_name : text) (f : file) : count_occ ascii_dec file_name "."%char <> 1%nat -> alicona_read file_name f = Raise (Py ValueError).
Proof.
  intro N. unfold alicona_read, split_name. pose proof (split_count "." file_name) as L. destruct (split "." file_name) as [|x [|y [|z l]]]; try reflexivity. cbn in L. lia.
Qed.
(** Images beside a numbered file: the number is taken from brackets or from after a space, and the images that are looked
    for have the number straight after [icon] and [texture], without a space or brackets; then the ones without a number. *)
Lemma span_digits_at ds c r : Forall (fun x => is_digit x = true) ds -> is_digit c = false -> span_digits (ds ++ c :: r) = (ds, c :: r).
Proof. intros D N. induction D as [|x ds X D IH]; cbn; [now rewrite N|]. now rewrite X, IH. Qed.
Theorem c105_images (base ds name ext : text) (sp : ascii) (f : file) (c : contents) : Forall (fun x => is_digit x = true) ds -> is_space sp = true ->
  ~ In "."%char name -> ~ In "."%char ext -> name = base ++ ["("%char] ++ ds ++ [")"%char] \/ name = base ++ [sp] ++ ds ->
  alicona_read (name ++ ["."%char] ++ ext) f = Good c ->
  icon c = match image (txt "icon" ++ ds ++ txt ".bmp") with Some i => Some i | None => image (txt "icon.bmp") end /\
  texture_data c = match image (txt "texture" ++ ds ++ txt ".bmp") with Some i => Some i | None => image (txt "texture.bmp") end.
Proof.
  intros D SP N1 N2 NM R0. assert (NT : number_tag name = ds).
  { assert (DR : Forall (fun x => is_digit x = true) (rev ds)) by now apply Forall_rev. destruct NM as [-> | ->]; unfold number_tag.
    - replace (rev (base ++ ["("%char] ++ ds ++ [")"%char])) with (")"%char :: rev ds ++ "("%char :: rev base) by (rewrite !rev_app_distr; cbn; now rewrite <- !app_assoc).
      rewrite Ascii.eqb_refl, (span_digits_at (rev ds) "("%char) by (auto; reflexivity). rewrite Ascii.eqb_refl. apply rev_involutive.
    - replace (rev (base ++ [sp] ++ ds)) with (rev ds ++ sp :: rev base) by (rewrite !rev_app_distr; cbn; now rewrite <- !app_assoc).
      assert (SD : is_digit sp = false) by (revert SP; clear; destruct sp as [[] [] [] [] [] [] [] []]; intro H; vm_compute in H |- *; congruence).
      rewrite (span_digits_at (rev ds) sp) by assumption. rewrite SP, rev_involutive.
      destruct (rev ds ++ sp :: rev base) as [|x r] eqn:X; [reflexivity|]. destruct (Ascii.eqb_spec x ")"%char) as [->|]; [|reflexivity]. exfalso.
      destruct (rev ds) as [|y r']; cbn in X; inversion X; subst; [revert SP; vm_compute; discriminate|]. inversion DR; subst. discriminate. }
  revert R0. unfold alicona_read, split_name. rewrite (split_at "." name), split_no by assumption. cbn [bindr]. rewrite NT.
  destruct (read_header parse_float f) as [d|e|]; cbn [bindr]; [|discriminate|discriminate]. destruct (offset "IconOffset" d) as [io|e|]; cbn [bindr]; [|discriminate|discriminate]. destruct (0 <? io); [discriminate|].
  destruct (rows_of trunc d) as [rows|e|]; cbn [bindr]; [|discriminate|discriminate]. destruct (offset "DepthImageOffset" d) as [dof|e|]; cbn [bindr]; [|discriminate|discriminate].
  match goal with |- bindr ?x _ = _ -> _ => destruct x as [dd|e|]; cbn [bindr]; [|discriminate|discriminate] end. destruct (offset "TextureImageOffset" d) as [tof|e|]; cbn [bindr]; [|discriminate|discriminate].
  assert (NR : forall T (x : T), read_texture (Z.of_nat (List.length f)) d rows tof <> Good x).
  { intros T x. unfold read_texture. match goal with |- bindr ?x _ <> _ => destruct x as [p|e|]; cbn [bindr]; [|discriminate|discriminate] end. destruct p as [z|y|s]; try discriminate. destruct (_ =? 0); [discriminate|]. destruct (_ =? 1); discriminate. }
  destruct (0 <? tof).
  - match goal with |- bindr ?x _ = _ -> _ => destruct x eqn:X; cbn [bindr]; [|discriminate|discriminate] end. now apply NR in X.
  - intro H. inversion H; subst c. cbn [icon texture_data]. split; reflexivity.
Qed.
End Reader.

(** A file with two rows of two depths, of which the last column fills up the rows; the second depth is invalid. *)
Definition al_case (eol : text) (off : Z) : al_file :=
  {| a_type := txt "AliconaImaging"; a_version := 1;
     a_tags := [(txt "IconOffset", txt "0"); (txt "TextureImageOffset", txt "0"); (txt "Rows", txt "2"); (txt "Cols", txt "2"); (txt "DepthImageOffset", py_str off);
                (txt "InvalidPixelValue", txt "!!!!"); (txt "TexturePtr", txt "0;1;2")];
     a_comment := txt "none"; a_gap := repeat zero 3; a_depth := [[txt "abcd"; txt "!!!!"; txt "...."]; [txt "efgh"; txt "ijkl"; txt "...."]] |}.
Example al_case_right : exists off, al_right [ascii_of_N 13] (al_case [ascii_of_N 13] off) 3 2.
Proof.
  exists 540. unfold al_right, tag_number. cbn [al_case a_type a_version a_comment a_tags a_depth a_gap]. split; [now apply txt_clean|]. split; [lia|]. split; [now apply txt_clean|]. split.
  { repeat constructor; cbn [fst snd]; try apply txt_clean; try reflexivity; try (cbn; lia); try discriminate. all: vm_compute; congruence. }
  split; [exists 0; split; [|lia]; exists (txt "0"); split; reflexivity|]. split; [exists (txt "0"); split; reflexivity|]. split; [exists (txt "2"); split; reflexivity|]. split; [exists (txt "2"); split; reflexivity|].
  split; [exists (py_str 540); split; [reflexivity|vm_compute; reflexivity]|]. split; [discriminate|]. split; [lia|]. repeat constructor.
Qed.
Example al_case_read : let image n := if text_eqb n (txt "icon7.bmp") then Some 1 else if text_eqb n (txt "texture.bmp") then Some 2 else None in
  exists c, alicona_read (F := Z) (fun _ => None) (fun z => Some z) (fun v b => match v with TStr s => text_eqb (firstn 4 s) b | _ => false end) image (txt "dem (7).al3d") (al_text [ascii_of_N 13] (al_case [ascii_of_N 13] 540)) = Good c /\
    depth_data c = Some [[Value (txt "abcd"); NotANumber]; [Value (txt "efgh"); Value (txt "ijkl")]] /\ icon c = Some 1 /\ texture_data c = Some 2 /\
    get (Some (txt "TexturePtr")) (header c) = Some (TStr (txt "0;1;2" ++ [ascii_of_N 13])).
Proof. intro image. eexists. split; [vm_compute; reflexivity|]. repeat split. Qed.

Print Assumptions c68_depth_columns.
Print Assumptions c68_depth_columns_refuted.
Print Assumptions c105_depth.
Print Assumptions c105_text_refuted.
Print Assumptions c105_icon_refuted.
Print Assumptions c105_texture_refuted.
Print Assumptions c105_name.
Print Assumptions c105_images.
