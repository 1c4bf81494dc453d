From Coq Require Import List String Ascii Bool Arith Lia Decimal DecimalString DecimalNat.
From Verif Require Import OutputsModel OutputsSpec.
Import ListNotations.
Local Open Scope string_scope.

(** ** String lemmas *)
Lemma sapp_assoc (a b c : string) : (a ++ b) ++ c = a ++ (b ++ c).
Proof. induction a as [|x a IH]; cbn; [reflexivity|now rewrite IH]. Qed.
Lemma sapp_nil (a : string) : a ++ "" = a.
Proof. induction a as [|x a IH]; cbn; [reflexivity|now rewrite IH]. Qed.
Lemma slength_app (a b : string) : String.length (a ++ b) = String.length a + String.length b.
Proof. induction a as [|x a IH]; cbn; [reflexivity|now rewrite IH]. Qed.
Lemma substring_full (s : string) : substring 0 (String.length s) s = s.
Proof. induction s as [|c s IH]; cbn; [reflexivity|now rewrite IH]. Qed.
Lemma substring_zero_app (a b : string) : substring 0 (String.length a) (a ++ b) = a.
Proof. induction a as [|c a IH]; cbn; [destruct b; reflexivity|now rewrite IH]. Qed.
Lemma substring_skip (a b : string) m : substring (String.length a) m (a ++ b) = substring 0 m b.
Proof. induction a as [|c a IH]; cbn; [reflexivity|exact IH]. Qed.
Lemma substring_mid (a b c : string) :
  substring (String.length a) (String.length b) (a ++ b ++ c) = b.
Proof. rewrite substring_skip. apply substring_zero_app. Qed.
Lemma prefix_app (p s : string) : String.prefix p (p ++ s) = true.
Proof.
  induction p as [|c p IH]; cbn; [destruct s; reflexivity|].
  destruct (ascii_dec c c) as [_|n]; [exact IH|congruence].
Qed.
Lemma prefix_starts p s : String.prefix p s = true <-> starts_with p s.
Proof.
  unfold starts_with. split.
  - revert s. induction p as [|c p IH]; intros s H.
    + exists s. reflexivity.
    + destruct s as [|c' s]; cbn in H; [discriminate|].
      destruct (ascii_dec c c') as [->|]; [|discriminate].
      destruct (IH _ H) as [t ->]. exists t. reflexivity.
  - intros [t ->]. apply prefix_app.
Qed.

(** ** Digits *)
Lemma all_chars_app f a b : all_chars f (a ++ b) = all_chars f a && all_chars f b.
Proof. induction a as [|c a IH]; cbn; [reflexivity|]. rewrite IH. now rewrite andb_assoc. Qed.
Lemma uint_digits (d : uint) : all_chars is_digit (NilEmpty.string_of_uint d) = true.
Proof. induction d; cbn; auto. Qed.
Lemma str_nat_digits n : all_chars is_digit (str_nat n) = true.
Proof. apply uint_digits. Qed.
Lemma str_nat_nonempty n : str_nat n <> "".
Proof.
  unfold str_nat. intros H.
  assert (E : NilEmpty.uint_of_string (NilEmpty.string_of_uint (Nat.to_uint n)) = Some (Nat.to_uint n))
    by apply NilEmpty.usu.
  rewrite H in E. cbn in E. injection E as E.
  pose proof (Unsigned.of_to n) as O. rewrite <- E in O. cbn in O. subst n.
  cbn in H. discriminate.
Qed.
Lemma digits_str_nat n : digits_to_nat (str_nat n) = Some n.
Proof.
  unfold digits_to_nat. pose proof (str_nat_nonempty n) as Hn.
  destruct (str_nat n) as [|c s] eqn:E; [congruence|]. rewrite <- E.
  unfold str_nat. rewrite NilEmpty.usu. cbn. now rewrite Unsigned.of_to.
Qed.
Lemma str_nat_inj n m : str_nat n = str_nat m -> n = m.
Proof.
  intros H. pose proof (digits_str_nat n) as A. rewrite H, digits_str_nat in A. congruence.
Qed.
Lemma entry_name_inj n m : entry_name n = entry_name m -> n = m.
Proof. unfold entry_name. cbn. intros H. injection H as H. now apply str_nat_inj. Qed.

(** ** Hash positions *)
Definition no_hash (c : ascii) : bool := negb (Ascii.eqb c "#").
Lemma hash_none i s : all_chars no_hash s = true -> hash_positions i s = [].
Proof.
  revert i. induction s as [|c s IH]; intros i H; cbn in *; [reflexivity|].
  apply andb_true_iff in H as [H1 H2]. unfold no_hash in H1.
  apply negb_true_iff in H1. rewrite H1. now apply IH.
Qed.
Lemma hash_app i a b :
  hash_positions i (a ++ b) = (hash_positions i a ++ hash_positions (i + String.length a) b)%list.
Proof.
  revert i. induction a as [|c a IH]; intros i; cbn.
  - now rewrite Nat.add_0_r.
  - rewrite IH. replace (S i + String.length a) with (i + S (String.length a)) by lia.
    destruct (Ascii.eqb c "#"); reflexivity.
Qed.
Lemma all_chars_mono (f g : ascii -> bool) s :
  (forall c, f c = true -> g c = true) -> all_chars f s = true -> all_chars g s = true.
Proof.
  intros Hfg. induction s as [|c s IH]; cbn; [auto|].
  intros H. apply andb_true_iff in H as [H1 H2]. rewrite (Hfg _ H1), (IH H2). reflexivity.
Qed.
Lemma shape_char_no_hash c : shape_char c = true -> no_hash c = true.
Proof.
  unfold no_hash. destruct (Ascii.eqb_spec c "#") as [->|n]; cbn; [|auto].
  vm_compute. discriminate.
Qed.
Lemma digit_shape_char c : is_digit c = true -> shape_char c = true.
Proof. unfold shape_char. intros ->. reflexivity. Qed.

Lemma str_nat_shape n : all_chars shape_char (str_nat n) = true.
Proof. eapply all_chars_mono; [apply digit_shape_char|apply str_nat_digits]. Qed.
Lemma join_shape l : all_chars shape_char (join ", " (map str_nat l)) = true.
Proof.
  induction l as [|n [|m l] IH]; [reflexivity| |].
  - cbn [map join]. apply str_nat_shape.
  - cbn [map join] in *. rewrite !all_chars_app, str_nat_shape.
    change (all_chars shape_char ", ") with true. cbn [andb]. exact IH.
Qed.
Lemma str_tuple_shape l : all_chars shape_char (str_tuple l) = true.
Proof.
  destruct l as [|n [|m l]]; [reflexivity| |]; unfold str_tuple.
  - rewrite !all_chars_app, str_nat_shape. reflexivity.
  - rewrite !all_chars_app, join_shape. reflexivity.
Qed.

(** ** eval of a printed shape *)
Lemma eval_digits d rest cur acc : all_chars is_digit d = true ->
  eval_items (d ++ rest) cur acc = eval_items rest (cur ++ d) acc.
Proof.
  revert cur. induction d as [|c d IH]; intros cur H.
  - now rewrite sapp_nil.
  - cbn [append] in *. cbn in H. apply andb_true_iff in H as [H1 H2].
    cbn [eval_items]. rewrite H1. rewrite IH by exact H2. rewrite sapp_assoc. reflexivity.
Qed.
Lemma eval_comma n rest acc :
  eval_items (str_nat n ++ String "," rest) "" acc = eval_items rest "" (acc ++ [n])%list.
Proof.
  rewrite eval_digits by apply str_nat_digits.
  cbn [eval_items]. change (is_digit ",") with false. cbn [Ascii.eqb].
  change ("" ++ str_nat n) with (str_nat n). rewrite digits_str_nat. reflexivity.
Qed.
Lemma eval_space rest acc : eval_items (String " " rest) "" acc = eval_items rest "" acc.
Proof. reflexivity. Qed.
Lemma eval_close n acc : acc <> [] ->
  eval_items (str_nat n ++ ")") "" acc = Ok (PTuple (acc ++ [n])%list).
Proof.
  intros Ha. rewrite eval_digits by apply str_nat_digits.
  change ("" ++ str_nat n) with (str_nat n).
  cbn [eval_items]. change (is_digit ")") with false.
  change (Ascii.eqb ")" ",") with false. change (Ascii.eqb ")" " ") with false.
  change (Ascii.eqb ")" ")") with true. cbv iota.
  destruct (str_nat n) as [|c s] eqn:E; [now apply str_nat_nonempty in E|].
  rewrite <- E, digits_str_nat. destruct acc; [congruence|reflexivity].
Qed.
Lemma eval_join n l acc : acc <> [] \/ l <> [] ->
  eval_items (join ", " (map str_nat (n :: l)) ++ ")") "" acc
  = Ok (PTuple (acc ++ n :: l)%list).
Proof.
  revert n acc. induction l as [|m l IH]; intros n acc H.
  - cbn [map join]. apply eval_close. destruct H; [assumption|congruence].
  - change (join ", " (map str_nat (n :: m :: l)))
      with (str_nat n ++ ", " ++ join ", " (map str_nat (m :: l))).
    rewrite !sapp_assoc.
    change (", " ++ join ", " (map str_nat (m :: l)) ++ ")")
      with (String "," (String " " (join ", " (map str_nat (m :: l)) ++ ")"))).
    rewrite eval_comma, eval_space, IH.
    + now rewrite <- app_assoc.
    + left. destruct acc; discriminate.
Qed.
Lemma eval_str_tuple l : eval_shape (str_tuple l) = Ok (PTuple l).
Proof.
  destruct l as [|n [|m l]]; [reflexivity| |].
  - change (str_tuple [n]) with (String "(" (str_nat n ++ String "," ")")).
    cbn [eval_shape]. rewrite eval_comma. reflexivity.
  - change (str_tuple (n :: m :: l))
      with (String "(" (join ", " (map str_nat (n :: m :: l)) ++ ")")).
    cbn [eval_shape]. rewrite eval_join; [reflexivity|right; discriminate].
Qed.

(** ** The code string *)
Lemma code_hashes n sh dt :
  exists rest,
  hash_positions 0 (array_code n sh dt) =
    9 :: 10 + String.length (str_nat n)
    :: 11 + String.length (str_nat n) + String.length (str_tuple sh) :: rest.
Proof.
  unfold array_code, marker.
  exists (hash_positions (12 + String.length (str_nat n) + String.length (str_tuple sh)) dt).
  cbn [append hash_positions].
  repeat match goal with |- context [Ascii.eqb ?a ?b] =>
    let v := eval vm_compute in (Ascii.eqb a b) in change (Ascii.eqb a b) with v end.
  cbv iota. f_equal.
  rewrite hash_app, (hash_none _ (str_nat n)).
  2:{ eapply all_chars_mono; [apply shape_char_no_hash|apply str_nat_shape]. }
  cbn [List.app hash_positions]. change (Ascii.eqb "#" "#") with true. cbv iota.
  f_equal. rewrite hash_app, (hash_none _ (str_tuple sh)).
  2:{ eapply all_chars_mono; [apply shape_char_no_hash|apply str_tuple_shape]. }
  cbn [List.app hash_positions]. change (Ascii.eqb "#" "#") with true. cbv iota.
  f_equal; lia.
Qed.

Lemma code_parts n sh dt :
  let s := array_code n sh dt in
  slice 10 (10 + String.length (str_nat n)) s = str_nat n /\
  slice (11 + String.length (str_nat n))
        (11 + String.length (str_nat n) + String.length (str_tuple sh)) s = str_tuple sh /\
  slice (12 + String.length (str_nat n) + String.length (str_tuple sh)) (String.length s) s = dt.
Proof.
  cbv zeta. unfold array_code, slice. repeat split.
  - replace (10 + String.length (str_nat n) - 10) with (String.length (str_nat n)) by lia.
    change 10 with (String.length (marker ++ "#")).
    rewrite <- (sapp_assoc marker "#"). apply substring_mid.
  - replace (11 + String.length (str_nat n) + String.length (str_tuple sh)
             - (11 + String.length (str_nat n))) with (String.length (str_tuple sh)) by lia.
    replace (11 + String.length (str_nat n))
      with (String.length ((marker ++ "#" ++ str_nat n ++ "#"))).
    2:{ rewrite !slength_app. cbn [String.length marker append]. lia. }
    replace (marker ++ "#" ++ str_nat n ++ "#" ++ str_tuple sh ++ "#" ++ dt)
      with ((marker ++ "#" ++ str_nat n ++ "#") ++ str_tuple sh ++ "#" ++ dt)
      by now rewrite !sapp_assoc.
    apply substring_mid.
  - set (a := marker ++ "#" ++ str_nat n ++ "#" ++ str_tuple sh ++ "#").
    replace (marker ++ "#" ++ str_nat n ++ "#" ++ str_tuple sh ++ "#" ++ dt)
      with (a ++ dt) by (unfold a; now rewrite !sapp_assoc).
    replace (12 + String.length (str_nat n) + String.length (str_tuple sh))
      with (String.length a).
    2:{ unfold a. rewrite !slength_app. cbn [String.length marker append]. lia. }
    rewrite slength_app. replace (String.length a + String.length dt - String.length a)
      with (String.length dt) by lia.
    rewrite substring_skip. apply substring_full.
Qed.

Lemma Forall2_weaken {A B} (P Q : A -> B -> Prop) l l' :
  (forall a b, P a b -> Q a b) -> Forall2 P l l' -> Forall2 Q l l'.
Proof. intros H F. induction F; constructor; auto. Qed.

Section Proofs.
Context {num bytes : Type}.
Variable to_float : bytes -> string -> option num.
Variable np_has : string -> bool.
Local Notation value := (@value num bytes).
Local Notation read_array := (@read_array bytes np_has).
Local Notation read_value := (@read_value num bytes np_has).
Local Notation read_record := (@read_record num bytes np_has).
Local Notation clean_value := (@clean_value num bytes to_float).
Local Notation clean_dict := (@clean_dict num bytes to_float).
Local Notation run := (@run num bytes to_float).
Local Notation step := (@step num bytes to_float).
Local Notation reads_as := (@reads_as num bytes to_float).

Lemma read_array_code z n a :
  np_has (nd_dtype a) = true ->
  zip_read (entry_name n) z = Some (nd_bytes a) ->
  read_array z (array_code n (nd_shape a) (nd_dtype a)) = Ok a.
Proof.
  intros Hd Hz. unfold OutputsModel.read_array.
  destruct (code_hashes n (nd_shape a) (nd_dtype a)) as [rest ->].
  cbn [nth_error].
  destruct (code_parts n (nd_shape a) (nd_dtype a)) as (P1 & P2 & P3).
  change (9 + 1) with 10.
  replace (10 + String.length (str_nat n) + 1) with (11 + String.length (str_nat n)) by lia.
  replace (11 + String.length (str_nat n) + String.length (str_tuple (nd_shape a)) + 1)
    with (12 + String.length (str_nat n) + String.length (str_tuple (nd_shape a))) by lia.
  rewrite P1, P2, P3, str_tuple_shape. cbn [negb].
  rewrite eval_str_tuple. cbn [bind]. rewrite Hd. cbn [negb].
  unfold entry_name in Hz. rewrite Hz. destruct a; reflexivity.
Qed.

(** Names of archive entries with numbers in [[lo, hi)]. *)
Definition names_in (lo hi : nat) (z : list (string * bytes)) : Prop :=
  Forall (fun kb => exists k, lo <= k < hi /\ fst kb = entry_name k) z.

Lemma zip_read_app name z1 z2 :
  zip_read name (z1 ++ z2)%list =
  match @zip_read bytes name z2 with Some b => Some b | None => zip_read name z1 end.
Proof.
  induction z1 as [|[k b] z1 IH]; cbn.
  - destruct (zip_read name z2); reflexivity.
  - rewrite IH. destruct (zip_read name z2); [reflexivity|].
    destruct (zip_read name z1); reflexivity.
Qed.
Lemma zip_read_absent n lo hi z : names_in lo hi z -> n < lo \/ hi <= n ->
  zip_read (entry_name n) z = None.
Proof.
  intros H Hn. induction H as [|[k b] z (j & Hj & Hk) Hz IH]; cbn [zip_read]; [reflexivity|].
  rewrite IH. cbn [fst] in Hk. subst k.
  destruct (String.eqb_spec (entry_name j) (entry_name n)) as [E|]; [|reflexivity].
  apply entry_name_inj in E. lia.
Qed.
Lemma names_in_weaken lo hi lo' hi' z : lo' <= lo -> hi <= hi' ->
  names_in lo hi z -> names_in lo' hi' z.
Proof.
  intros H1 H2. unfold names_in. rewrite !Forall_forall. intros H x Hx.
  destruct (H x Hx) as (k & ? & ?). exists k. split; [lia|assumption].
Qed.

Lemma prefix_code n sh dt : String.prefix marker (array_code n sh dt) = true.
Proof. unfold array_code. apply prefix_app. Qed.

Lemma size_is_fold sh : size sh = fold_right Nat.mul 1 sh.
Proof. reflexivity. Qed.

(** One value: what is stored, and that it reads back under any later writes. *)
Lemma clean_value_spec v z n j z' n' :
  clean_value v z n = (j, z', n') ->
  exists zs, z' = (z ++ zs)%list /\ names_in n n' zs /\ n <= n' /\ NoDup (map fst zs) /\
  (storable np_has v -> forall later, names_in n' (n' + List.length later) later \/
      (exists hi, names_in n' hi later) ->
   exists w, reads_as v w /\ read_value (z ++ zs ++ later)%list j = Ok w).
Proof.
  unfold OutputsModel.clean_value. intros H.
  destruct v as [x|s|a].
  - injection H as <- <- <-. exists []. rewrite app_nil_r.
    repeat split; try constructor. intros _ later _. exists (VNum x). split; constructor.
  - injection H as <- <- <-. exists []. rewrite app_nil_r.
    repeat split; try constructor. intros Hs later _. exists (VStr s). split; [constructor|].
    cbn [OutputsModel.read_value]. cbn in Hs.
    destruct (String.prefix marker s) eqn:E; [|reflexivity].
    apply prefix_starts in E. contradiction.
  - assert (Harr : forall j z' n',
      (JStr (array_code n (nd_shape a) (nd_dtype a)) : @json num,
         (z ++ [(entry_name n, nd_bytes a)])%list, S n) = (j, z', n') ->
      (fold_right Nat.mul 1 (nd_shape a) <> 1 \/ to_float (nd_bytes a) (nd_dtype a) = None) ->
      exists zs, z' = (z ++ zs)%list /\ names_in n n' zs /\ n <= n' /\ NoDup (map fst zs) /\
      (storable np_has (VArr a : value) -> forall later, names_in n' (n' + List.length later) later \/
          (exists hi, names_in n' hi later) ->
       exists w, reads_as (VArr a) w /\ read_value (z ++ zs ++ later)%list j = Ok w)).
    { clear. intros j z' n' H Ha. injection H as <- <- <-.
      exists [(entry_name n, nd_bytes a)]. repeat split.
      - constructor; [|constructor]. exists n. split; [lia|reflexivity].
      - lia.
      - constructor; [intros []|constructor].
      - intros Hs later Hl. exists (VArr a). split; [now constructor|].
        cbn [OutputsModel.read_value]. rewrite prefix_code.
        rewrite read_array_code; [reflexivity|exact Hs|].
        rewrite zip_read_app. cbn [zip_read List.app].
        assert (Hl' : zip_read (entry_name n) later = None).
        { destruct Hl as [Hl|[hi Hl]]; eapply zip_read_absent; eauto. }
        rewrite Hl', String.eqb_refl. reflexivity. }
    rewrite size_is_fold in H.
    destruct (Nat.eqb_spec (fold_right Nat.mul 1 (nd_shape a)) 1) as [E|E].
    + destruct (to_float (nd_bytes a) (nd_dtype a)) as [x|] eqn:F.
      * injection H as <- <- <-. exists []. rewrite app_nil_r.
        repeat split; try constructor. intros _ later _. exists (VNum x).
        split; [now constructor|reflexivity].
      * apply Harr; [exact H|now right].
    + apply Harr; [exact H|now left].
Qed.

Lemma NoDup_app_disjoint {A} (l1 l2 : list A) :
  NoDup l1 -> NoDup l2 -> (forall x, In x l1 -> ~ In x l2) -> NoDup (l1 ++ l2).
Proof.
  intros H1 H2 H. induction H1 as [|x l1 Hx H1 IH]; cbn; [exact H2|].
  constructor.
  - rewrite in_app_iff. intros [|]; [contradiction|]. apply (H x); [now left|assumption].
  - apply IH. intros y Hy. apply H. now right.
Qed.
Lemma names_in_disjoint a b c d z1 z2 x : b <= c ->
  names_in a b z1 -> names_in c d z2 -> In x (map fst z1) -> ~ In x (map fst z2).
Proof.
  unfold names_in. rewrite !Forall_forall. intros Hbc H1 H2 I1 I2.
  apply in_map_iff in I1 as (y1 & <- & I1). apply in_map_iff in I2 as (y2 & E & I2).
  destruct (H1 _ I1) as (k1 & ? & E1). destruct (H2 _ I2) as (k2 & ? & E2).
  rewrite E1, E2 in E. apply entry_name_inj in E. lia.
Qed.

Lemma clean_dict_spec d : forall z n js z' n',
  clean_dict d z n = (js, z', n') ->
  exists zs, z' = (z ++ zs)%list /\ names_in n n' zs /\ n <= n' /\ NoDup (map fst zs) /\
  (Forall (fun kv => storable np_has (snd kv)) d ->
   forall later hi, names_in n' hi later ->
   exists d', record_reads_as to_float d d' /\ read_record (z ++ zs ++ later)%list js = Ok d').
Proof.
  induction d as [|[k v] d IH]; intros z n js z' n' H.
  - cbn in H. injection H as <- <- <-. exists []. rewrite app_nil_r.
    repeat split; try constructor. intros _ later hi _. exists []. split; constructor.
  - cbn [OutputsModel.clean_dict] in H.
    destruct (clean_value v z n) as [[j z1] n1] eqn:E1.
    destruct (clean_dict d z1 n1) as [[js' z2] n2] eqn:E2.
    injection H as <- <- <-.
    apply clean_value_spec in E1 as (zs1 & -> & N1 & L1 & D1 & R1).
    apply IH in E2 as (zs2 & -> & N2 & L2 & D2 & R2).
    exists (zs1 ++ zs2)%list. rewrite app_assoc. split; [reflexivity|].
    split; [|split; [lia|split]].
    + apply Forall_app. split; [eapply names_in_weaken; [| |exact N1]; lia|].
      eapply names_in_weaken; [| |exact N2]; lia.
    + rewrite map_app. apply NoDup_app_disjoint; [assumption|assumption|].
      intros x. eapply names_in_disjoint; [|exact N1|exact N2]. lia.
    + intros Hs later hi Hl. apply Forall_cons_iff in Hs as [Hs1 Hs2].
      destruct (R2 Hs2 later hi Hl) as (d' & Hd' & Hr).
      cbn in Hs1.
      destruct (R1 Hs1 (zs2 ++ later)%list) as (w & Hw & Hj).
      { right. exists (Nat.max n2 hi). apply Forall_app. split.
        - eapply names_in_weaken; [| |exact N2]; lia.
        - eapply names_in_weaken; [| |exact Hl]; lia. }
      exists ((k, w) :: d'). split.
      * constructor; [split; [reflexivity|exact Hw]|exact Hd'].
      * cbn [OutputsModel.read_record].
        replace ((z ++ (zs1 ++ zs2) ++ later)%list) with ((z ++ zs1 ++ zs2 ++ later)%list)
          by now rewrite <- app_assoc.
        rewrite Hj. cbn [bind].
        rewrite <- !app_assoc in Hr. rewrite Hr. reflexivity.
Qed.

Lemma run_writes rs : forall s,
  in_context s = true ->
  exists jss zs, 
    run s (map Write rs) =
      Saver true (database s ++ jss)%list (archive s ++ zs)%list (array_number (run s (map Write rs)))
    /\ array_number s <= array_number (run s (map Write rs))
    /\ names_in (array_number s) (array_number (run s (map Write rs))) zs
    /\ (Forall (Forall (fun kv => storable np_has (snd kv))) rs ->
        forall later hi, names_in (array_number (run s (map Write rs))) hi later ->
        Forall2 (fun d js => exists d', record_reads_as to_float d d' /\
                   read_record (archive s ++ zs ++ later)%list js = Ok d') rs jss).
Proof.
  induction rs as [|r rs IH]; intros s Hs.
  - exists [], []. cbn. rewrite !app_nil_r. destruct s as [c db z n]; cbn in *. subst c.
    repeat split; try constructor.
  - cbn [map]. change (run s (Write r :: map Write rs))
      with (run (fst (step s (Write r))) (map Write rs)).
    cbn [OutputsModel.step]. unfold write. rewrite Hs.
    destruct (clean_dict r (archive s) (array_number s)) as [[js z1] n1] eqn:E.
    apply clean_dict_spec in E as (zs1 & -> & N1 & L1 & D1 & R1).
    cbn [fst].
    destruct (IH (Saver true (database s ++ [js])%list (archive s ++ zs1)%list n1) eq_refl)
      as (jss & zs2 & Erun & L2 & N2 & R2).
    set (s' := Saver true (database s ++ [js])%list (archive s ++ zs1)%list n1) in *.
    exists (js :: jss), (zs1 ++ zs2)%list.
    cbn [database archive array_number s'] in *.
    split; [|split; [|split]].
    + rewrite Erun at 1. rewrite <- !app_assoc. reflexivity.
    + lia.
    + apply Forall_app. split; [eapply names_in_weaken; [| |exact N1]; lia|].
      eapply names_in_weaken; [| |exact N2]; lia.
    + intros Hst later hi Hl. apply Forall_cons_iff in Hst as [Hst1 Hst2]. constructor.
      * destruct (R1 Hst1 (zs2 ++ later)%list (Nat.max hi (array_number (run s' (map Write rs)))))
          as (d' & Hd & Hr).
        { apply Forall_app. split; (eapply names_in_weaken; [| |eassumption]; lia). }
        exists d'. split; [exact Hd|]. rewrite <- app_assoc. exact Hr.
      * specialize (R2 Hst2 later hi Hl).
        eapply Forall2_weaken; [|exact R2]. intros d js' (d' & ? & Hr). exists d'.
        split; [assumption|]. rewrite <- !app_assoc in *. exact Hr.
Qed.

Theorem round_trip hist rs :
  Forall (Forall (fun kv => storable np_has (snd kv))) rs ->
  let s := run new_saver (hist ++ Enter :: map Write rs) in
  Forall2 (fun d js => exists d', record_reads_as to_float d d' /\
             read_record (archive s) js = Ok d') rs (database s).
Proof.
  intros H. cbv zeta. unfold OutputsModel.run. rewrite fold_left_app. cbn [fold_left].
  set (s0 := fold_left _ hist new_saver).
  change (fold_left _ (map Write rs) (fst (step s0 Enter)))
    with (run (enter s0) (map Write rs)).
  destruct (run_writes rs (enter s0) eq_refl) as (jss & zs & E & _ & _ & R).
  rewrite E. cbn [database archive enter List.app] in *.
  specialize (R H [] (array_number (run (enter s0) (map Write rs)))).
  rewrite app_nil_r in R. apply R. constructor.
Qed.

(** ** Collision freedom and context *)
Definition name_inv (s : @saver num bytes) : Prop :=
  names_in 0 (array_number s) (archive s) /\ NoDup (map fst (archive s)).
Lemma name_inv_step s o : name_inv s -> name_inv (fst (step s o)).
Proof.
  intros [H1 H2]. destruct o as [| |d]; cbn.
  - split; constructor.
  - split; assumption.
  - unfold write. destruct (in_context s); [|split; assumption].
    destruct (clean_dict d (archive s) (array_number s)) as [[js z] n] eqn:E. cbn.
    apply clean_dict_spec in E as (zs & -> & N & L & D & _). split; cbn.
    + apply Forall_app. split; (eapply names_in_weaken; [| |eassumption]; lia).
    + rewrite map_app. apply NoDup_app_disjoint; [assumption|assumption|].
      intros x. eapply names_in_disjoint; [|exact H1|exact N]. lia.
Qed.
Lemma name_inv_run os s : name_inv s -> name_inv (run s os).
Proof.
  revert s. induction os as [|o os IH]; intros s H; [exact H|].
  cbn. apply IH. now apply name_inv_step.
Qed.
Theorem names_distinct os : NoDup (map fst (archive (run new_saver os))).
Proof. apply (name_inv_run os new_saver). split; constructor. Qed.

(** Number of arrays a record stores in the archive. *)
Definition stored_array (v : value) : bool :=
  match v with
  | VArr a => negb (Nat.eqb (fold_right Nat.mul 1 (nd_shape a)) 1
              && match to_float (nd_bytes a) (nd_dtype a) with Some _ => true | None => false end)
  | _ => false
  end.
Lemma clean_value_count v z n j z' n' : clean_value v z n = (j, z', n') ->
  List.length z' = List.length z + (if stored_array v then 1 else 0).
Proof.
  unfold OutputsModel.clean_value. intros H. destruct v as [x|s|a]; cbn [stored_array].
  - injection H as _ <- _. lia.
  - injection H as _ <- _. lia.
  - rewrite size_is_fold in H.
    destruct (Nat.eqb (fold_right Nat.mul 1 (nd_shape a)) 1); cbn.
    + destruct (to_float (nd_bytes a) (nd_dtype a)); cbn; injection H as _ <- _;
        [lia|rewrite app_length; cbn; lia].
    + injection H as _ <- _. rewrite app_length; cbn; lia.
Qed.
Lemma clean_dict_count d : forall z n js z' n', clean_dict d z n = (js, z', n') ->
  List.length z' = List.length z + List.length (filter (fun kv => stored_array (snd kv)) d).
Proof.
  induction d as [|[k v] d IH]; intros z n js z' n' H; cbn in H.
  - injection H as _ <- _. cbn. lia.
  - destruct (clean_value v z n) as [[j z1] n1] eqn:E1.
    destruct (clean_dict d z1 n1) as [[js' z2] n2] eqn:E2.
    injection H as _ <- _. apply IH in E2. apply clean_value_count in E1.
    cbn [filter snd]. destruct (stored_array v); cbn [List.length] in *; lia.
Qed.

Lemma context_run os s :
  in_context (run s os) =
  fold_left (fun b o => match o with Enter => true | Exit => false | Write _ => b end) os (in_context s).
Proof.
  revert s. induction os as [|o os IH]; intros s; [reflexivity|].
  cbn [fold_left]. change (run s (o :: os)) with (run (fst (step s o)) os). rewrite IH.
  f_equal. destruct o as [| |d]; cbn; [reflexivity|reflexivity|].
  unfold write. destruct (in_context s) eqn:E; [|assumption].
  destruct (clean_dict d (archive s) (array_number s)) as [[js z] n]. reflexivity.
Qed.
Lemma write_outside s d : in_context s = false -> step s (Write d) = (s, Err ValueError).
Proof. intros H. cbn. unfold write. now rewrite H. Qed.
Lemma write_inside s d : in_context s = true ->
  snd (step s (Write d)) = Ok tt /\
  List.length (database (fst (step s (Write d)))) = S (List.length (database s)).
Proof.
  intros H. cbn. unfold write. rewrite H.
  destruct (clean_dict d (archive s) (array_number s)) as [[js z] n]. cbn.
  rewrite app_length. cbn. split; [reflexivity|lia].
Qed.
End Proofs.

Section ReaderProofs.
Context {num bytes : Type}.
Variable np_has : string -> bool.
Variable num_eqb : num -> num -> bool.
Variable nonneg : num -> bool.
Hypothesis eqb_spec : forall x y, num_eqb x y = true <-> x = y.
Local Notation entry := (list (string * @json num)).
Local Notation getitem := (@getitem num num_eqb nonneg).
Local Notation entry_time := (@entry_time num).

Lemma eqb_refl x : num_eqb x x = true.
Proof. now apply eqb_spec. Qed.
Lemma eqb_neq x y : x <> y -> num_eqb x y = false.
Proof. intros H. destruct (num_eqb x y) eqn:E; [|reflexivity]. apply eqb_spec in E. contradiction. Qed.

Lemma entry_time_has (e : entry) t : entry_time e = Some t <-> has_time t e.
Proof.
  unfold OutputsModel.entry_time, has_time. destruct (dget "time" e) as [[x|s]|]; split; intros H;
    try discriminate; congruence.
Qed.
Lemma time_is_has (e : entry) t : time_is num_eqb t e = true <-> has_time t e.
Proof.
  unfold time_is. rewrite <- entry_time_has.
  destruct (entry_time e) as [x|]; [|split; discriminate].
  rewrite eqb_spec. split; congruence.
Qed.
Lemma mem_time_points db t : mem_num num_eqb t (time_points nonneg db) = true <->
  exists e, In e db /\ has_time t e /\ nonneg t = true.
Proof.
  unfold mem_num, time_points, all_entries. rewrite existsb_exists. split.
  - intros (x & Hx & E). apply eqb_spec in E. subst x.
    apply in_flat_map in Hx as (e & He & Ht). apply filter_In in He as [He Hv].
    destruct (entry_time e) as [x|] eqn:Ee; [|destruct Ht].
    destruct Ht as [->|[]]. exists e. split; [exact He|]. split; [now apply entry_time_has|].
    unfold visible in Hv. rewrite Ee in Hv. exact Hv.
  - intros (e & He & Ht & Hn). exists t. split; [|apply eqb_refl].
    apply entry_time_has in Ht.
    apply in_flat_map. exists e. rewrite Ht. split; [|now left].
    apply filter_In. split; [exact He|]. unfold visible. now rewrite Ht.
Qed.
Lemma filter_first {A} (f : A -> bool) l e l' : filter f l = e :: l' ->
  exists pre post, l = (pre ++ e :: post)%list /\ f e = true /\ Forall (fun x => f x = false) pre.
Proof.
  induction l as [|x l IH]; cbn; [discriminate|].
  destruct (f x) eqn:E.
  - intros H. injection H as -> _. exists [], l. repeat split; [exact E|constructor].
  - intros H. destruct (IH H) as (pre & post & -> & Hf & Hp).
    exists (x :: pre), post. repeat split; [exact Hf|now constructor].
Qed.
Lemma filter_first_eq {A} (f : A -> bool) pre e post : f e = true ->
  Forall (fun x => f x = false) pre ->
  filter f (pre ++ e :: post) = e :: filter f post.
Proof.
  intros He Hp. rewrite filter_app. cbn. rewrite He.
  replace (filter f pre) with (@nil A); [reflexivity|].
  induction Hp as [|x l Hx Hp IH]; cbn; [reflexivity|]. now rewrite Hx.
Qed.

Lemma not_has_time_is t pre : Forall (fun e' : entry => ~ has_time t e') pre <->
  Forall (fun x => time_is num_eqb t x = false) pre.
Proof.
  rewrite !Forall_forall. split; intros H e He; specialize (H e He).
  - destruct (time_is num_eqb t e) eqn:E; [|reflexivity]. apply time_is_has in E. contradiction.
  - intros C. apply time_is_has in C. congruence.
Qed.

Lemma time_index db t e :
  getitem db (ITime t) = Ok (AtTime e) <-> first_with_time t db e /\ nonneg t = true.
Proof.
  cbn. destruct (mem_num num_eqb t (time_points nonneg db)) eqn:M.
  - apply mem_time_points in M as (e0 & He0 & Ht0 & Hn). split.
    + destruct (filter (time_is num_eqb t) db) as [|e1 l] eqn:F; [discriminate|].
      intros H. injection H as ->. apply filter_first in F as (pre & post & -> & Hf & Hp).
      split; [|exact Hn]. exists pre, post. split; [reflexivity|].
      split; [now apply time_is_has|]. now apply not_has_time_is.
    + intros [(pre & post & -> & Hf & Hp) _].
      rewrite filter_first_eq; [reflexivity|now apply time_is_has|now apply not_has_time_is].
  - split; [discriminate|]. intros [(pre & post & -> & Hf & Hp) Hn]. exfalso.
    assert (mem_num num_eqb t (time_points nonneg (pre ++ e :: post)) = true); [|congruence].
    apply mem_time_points. exists e. split; [|split; assumption].
    apply in_or_app. right. now left.
Qed.
Lemma time_unknown db t : (forall e, In e db -> has_time t e -> nonneg t = false) ->
  getitem db (ITime t) = Err IndexError.
Proof.
  intros H. cbn. destruct (mem_num num_eqb t (time_points nonneg db)) eqn:M; [|reflexivity].
  apply mem_time_points in M as (e & He & Ht & Hn). rewrite (H e He Ht) in Hn. discriminate.
Qed.

Lemma nget_nset_same {V} k (v : V) d : nget num_eqb k (nset num_eqb k v d) = Some v.
Proof.
  induction d as [|[k' v'] d IH]; cbn; [now rewrite eqb_refl|].
  destruct (num_eqb k k') eqn:E; cbn; rewrite E; [reflexivity|exact IH].
Qed.
Lemma nget_nset_other {V} k k' (v : V) d : k <> k' ->
  nget num_eqb k (nset num_eqb k' v d) = nget num_eqb k d.
Proof.
  intros H. induction d as [|[k2 v2] d IH]; cbn; [now rewrite eqb_neq|].
  destruct (num_eqb k' k2) eqn:E; cbn.
  - apply eqb_spec in E. subst k2. now rewrite !eqb_neq.
  - now rewrite IH.
Qed.

Definition fd_step f (d : list (num * option (@json num))) (e : entry) :=
  match entry_time e with Some t => nset num_eqb t (dget f e) d | None => d end.
Lemma field_dict_app f es e :
  field_dict num_eqb f (es ++ [e]) = fd_step f (field_dict num_eqb f es) e.
Proof. unfold field_dict. rewrite fold_left_app. reflexivity. Qed.

Lemma visible_has t (e : entry) : has_time t e -> visible nonneg e = nonneg t.
Proof. intros H. apply entry_time_has in H. unfold visible. now rewrite H. Qed.

Lemma field_dict_last f db t v :
  nget num_eqb t (field_dict num_eqb f (all_entries nonneg db)) = Some v <->
  exists e, last_with_time t db e /\ nonneg t = true /\ v = dget f e.
Proof.
  induction db as [|e db IH] using rev_ind.
  - cbn. split; [discriminate|]. intros (e & (pre & post & H & _) & _).
    destruct pre; discriminate.
  - unfold all_entries. rewrite filter_app. cbn [filter].
    destruct (visible nonneg e) eqn:V.
    + rewrite field_dict_app. unfold fd_step.
      unfold visible in V. destruct (entry_time e) as [te|] eqn:Ee; [|discriminate].
      destruct (num_eqb t te) eqn:Et.
      * apply eqb_spec in Et. subst te. rewrite nget_nset_same. split.
        -- intros H. injection H as <-. exists e. split; [|split; [exact V|reflexivity]].
           exists db, []. split; [reflexivity|]. split; [now apply entry_time_has|constructor].
        -- intros (e1 & (pre & post & Hdb & Ht & Hp) & _ & ->). f_equal.
           destruct post as [|x post] using rev_ind.
           ++ apply app_inj_tail in Hdb as [_ <-]. reflexivity.
           ++ clear IHpost. rewrite app_comm_cons, app_assoc in Hdb.
              apply app_inj_tail in Hdb as [_ <-]. apply Forall_app in Hp as [_ Hp].
              apply Forall_cons_iff in Hp as [Hp _]. exfalso. apply Hp. now apply entry_time_has.
      * assert (Hne : t <> te) by (intros ->; rewrite eqb_refl in Et; discriminate).
        rewrite nget_nset_other by exact Hne. fold (all_entries nonneg db). rewrite IH.
        split.
        -- intros (e1 & (pre & post & -> & Ht & Hp) & Hn & ->). exists e1.
           split; [|split; [exact Hn|reflexivity]]. exists pre, (post ++ [e])%list.
           rewrite <- app_assoc. split; [reflexivity|]. split; [exact Ht|].
           apply Forall_app. split; [exact Hp|]. constructor; [|constructor].
           intros C. apply entry_time_has in C. congruence.
        -- intros (e1 & (pre & post & Hdb & Ht & Hp) & Hn & ->).
           exists e1. split; [|split; [exact Hn|reflexivity]].
           destruct post as [|x post] using rev_ind.
           ++ apply app_inj_tail in Hdb as [_ <-]. apply entry_time_has in Ht. congruence.
           ++ clear IHpost. rewrite app_comm_cons, app_assoc in Hdb.
              apply app_inj_tail in Hdb as [-> <-]. apply Forall_app in Hp as [Hp _].
              exists pre, post. repeat split; assumption.
    + rewrite app_nil_r. fold (all_entries nonneg db). rewrite IH. split.
      * intros (e1 & (pre & post & -> & Ht & Hp) & Hn & ->). exists e1.
        split; [|split; [exact Hn|reflexivity]]. exists pre, (post ++ [e])%list.
        rewrite <- app_assoc. split; [reflexivity|]. split; [exact Ht|].
        apply Forall_app. split; [exact Hp|]. constructor; [|constructor].
        intros C. rewrite (visible_has _ _ C) in V. congruence.
      * intros (e1 & (pre & post & Hdb & Ht & Hp) & Hn & ->).
        exists e1. split; [|split; [exact Hn|reflexivity]].
        destruct post as [|x post] using rev_ind.
        -- apply app_inj_tail in Hdb as [_ <-]. rewrite (visible_has _ _ Ht) in V. congruence.
        -- clear IHpost. rewrite app_comm_cons, app_assoc in Hdb.
           apply app_inj_tail in Hdb as [-> <-]. apply Forall_app in Hp as [Hp _].
           exists pre, post. repeat split; assumption.
Qed.

(** The field index. *)
Lemma mem_str_in f l : mem_str f l = true <-> In f l.
Proof.
  unfold mem_str. rewrite existsb_exists. split.
  - intros (x & Hx & E). apply String.eqb_eq in E. now subst.
  - intros H. exists f. split; [exact H|apply String.eqb_refl].
Qed.
Lemma field_known db f : mem_str f (fields nonneg db) = true <->
  exists e t, In e db /\ has_time t e /\ nonneg t = true /\ In f (map fst e).
Proof.
  rewrite mem_str_in. unfold fields, all_entries. rewrite in_flat_map. split.
  - intros (e & He & Hf). apply filter_In in He as [He V]. unfold visible in V.
    destruct (entry_time e) as [t|] eqn:Et; [|discriminate].
    exists e, t. repeat split; try assumption. now apply entry_time_has.
  - intros (e & t & He & Ht & Hn & Hf). exists e. split; [|exact Hf].
    apply filter_In. split; [exact He|]. rewrite (visible_has _ _ Ht). exact Hn.
Qed.
Lemma field_index db f :
  (exists e t, In e db /\ has_time t e /\ nonneg t = true /\ In f (map fst e)) ->
  exists d, getitem db (IField f) = Ok (OfField d) /\
  forall t v, nget num_eqb t d = Some v <->
    exists e, last_with_time t db e /\ nonneg t = true /\ v = dget f e.
Proof.
  intros H. apply field_known in H. cbn. rewrite H. eexists. split; [reflexivity|].
  intros t v. apply field_dict_last.
Qed.
Lemma field_unknown db f :
  ~ (exists e t, In e db /\ has_time t e /\ nonneg t = true /\ In f (map fst e)) ->
  getitem db (IField f) = Err IndexError.
Proof.
  intros H. cbn. destruct (mem_str f (fields nonneg db)) eqn:E; [|reflexivity].
  apply field_known in E. contradiction.
Qed.

Lemma first_last_unique (db : list entry) t e e' : distinct_times db ->
  first_with_time t db e -> last_with_time t db e' -> e = e'.
Proof.
  intros D (pre & post & E & Ht & _) (pre' & post' & E' & Ht' & _).
  assert (N : nth_error db (List.length pre) = Some e).
  { rewrite E, nth_error_app2, Nat.sub_diag by lia. reflexivity. }
  assert (N' : nth_error db (List.length pre') = Some e').
  { rewrite E', nth_error_app2, Nat.sub_diag by lia. reflexivity. }
  specialize (D _ _ _ _ _ N N' Ht Ht'). rewrite D in N. congruence.
Qed.
Lemma distinct_first (db : list entry) e t : distinct_times db -> In e db -> has_time t e ->
  first_with_time t db e /\ last_with_time t db e.
Proof.
  intros D He Ht. apply in_split in He as (pre & post & ->).
  assert (N : nth_error (pre ++ e :: post) (List.length pre) = Some e).
  { rewrite nth_error_app2, Nat.sub_diag by lia. reflexivity. }
  split; exists pre, post; (split; [reflexivity|]; split; [exact Ht|]);
    apply Forall_forall; intros e' He' C; apply In_nth_error in He' as (k & Hk).
  - assert (L : k < List.length pre) by (apply nth_error_Some; congruence).
    assert (N' : nth_error (pre ++ e :: post) k = Some e') by (rewrite nth_error_app1; assumption).
    specialize (D _ _ _ _ _ N N' Ht C). lia.
  - assert (N' : nth_error (pre ++ e :: post) (List.length pre + S k) = Some e').
    { rewrite nth_error_app2 by lia.
      replace (List.length pre + S k - List.length pre) with (S k) by lia. exact Hk. }
    specialize (D _ _ _ _ _ N N' Ht C). lia.
Qed.

(** Reading arrays commutes with indexing. *)
Lemma read_record_dget z js r f : read_record np_has z js = Ok r ->
  match dget f js with
  | Some j => exists v, @read_value num bytes np_has z j = Ok v /\ dget f r = Some v
  | None => dget f r = None
  end.
Proof.
  revert r. induction js as [|[k j] js IH]; intros r H; cbn in H.
  - injection H as <-. reflexivity.
  - destruct (read_value np_has z j) as [v|] eqn:E1; [|discriminate]. cbn in H.
    destruct (read_record np_has z js) as [vs|] eqn:E2; [|discriminate]. cbn in H.
    injection H as <-. cbn. destruct (String.eqb f k).
    + exists v. split; [exact E1|reflexivity].
    + now apply IH.
Qed.
Lemma read_field_nget z d r t : read_field np_has z d = Ok r ->
  match nget num_eqb t d with
  | Some (Some j) => exists v, @read_value num bytes np_has z j = Ok v /\ nget num_eqb t r = Some (Some v)
  | Some None => nget num_eqb t r = Some None
  | None => nget num_eqb t r = None
  end.
Proof.
  revert r. induction d as [|[k oj] d IH]; intros r H; cbn in H.
  - injection H as <-. reflexivity.
  - destruct oj as [j|].
    + destruct (read_value np_has z j) as [v|] eqn:E1; [|discriminate]. cbn in H.
      destruct (read_field np_has z d) as [vs|] eqn:E2; [|discriminate]. cbn in H.
      injection H as <-. cbn. destruct (num_eqb t k).
      * exists v. split; [exact E1|reflexivity].
      * now apply IH.
    + destruct (read_field np_has z d) as [vs|] eqn:E2; [|discriminate]. cbn in H.
      injection H as <-. cbn. destruct (num_eqb t k); [reflexivity|]. now apply IH.
Qed.

Theorem time_field_agree (z : list (string * bytes)) db t f r d :
  distinct_times db ->
  reader_getitem np_has num_eqb nonneg z db (ITime t) = Ok (RAtTime r) ->
  reader_getitem np_has num_eqb nonneg z db (IField f) = Ok (ROfField d) ->
  nget num_eqb t d = Some (dget f r).
Proof.
  intros D H1 H2. unfold reader_getitem in *.
  destruct (getitem db (ITime t)) as [i1|] eqn:G1; [|discriminate]. cbn [bind] in H1.
  destruct (getitem db (IField f)) as [i2|] eqn:G2; [|discriminate]. cbn [bind] in H2.
  destruct i1 as [e|]; cbn in H1; [|destruct (read_field np_has z d0); discriminate].
  destruct (read_record np_has z e) as [r'|] eqn:R1; [|discriminate]. cbn in H1.
  injection H1 as ->.
  destruct i2 as [e2|d2]; cbn in H2; [destruct (read_record np_has z e2); discriminate|].
  destruct (read_field np_has z d2) as [d'|] eqn:R2; [|discriminate]. cbn in H2.
  injection H2 as ->.
  apply time_index in G1 as [F Hn].
  assert (L : nget num_eqb t d2 = Some (dget f e)).
  { assert (Hd2 : d2 = field_dict num_eqb f (all_entries nonneg db)).
    { cbn in G2. destruct (mem_str f (fields nonneg db)); [|discriminate]. congruence. }
    rewrite Hd2. apply field_dict_last. exists e. split; [|split; [exact Hn|reflexivity]].
    destruct F as (pre & post & E & Ht & _).
    apply (distinct_first db e t D); [|exact Ht]. rewrite E. apply in_or_app. right. now left. }
  pose proof (read_record_dget _ _ _ f R1) as A.
  pose proof (read_field_nget _ _ _ t R2) as B. rewrite L in B.
  destruct (dget f e) as [j|].
  - destruct A as (v & Hv & ->). destruct B as (v' & Hv' & ->). congruence.
  - now rewrite A, B.
Qed.

Lemma iter_all (db : list entry) :
  distinct_times db ->
  Forall (fun e => exists t, has_time t e /\ nonneg t = true) db ->
  iter_reader num_eqb nonneg db = map (fun e => Ok (AtTime e)) db.
Proof.
  intros D H. unfold iter_reader, time_points.
  assert (A : all_entries nonneg db = db).
  { unfold all_entries. clear D. induction H as [|e db (t & Ht & Hn) H IH]; cbn; [reflexivity|].
    rewrite (visible_has _ _ Ht), Hn. now f_equal. }
  rewrite A. clear A.
  assert (G : forall l, incl l db ->
    map (fun t => getitem db (ITime t))
      (flat_map (fun e => match entry_time e with Some t => [t] | None => [] end) l)
    = map (fun e => Ok (AtTime e)) l).
  { induction l as [|e l IH]; intros Hi; [reflexivity|].
    assert (He : In e db) by (apply Hi; now left).
    rewrite Forall_forall in H. destruct (H e He) as (t & Ht & Hn).
    cbn [flat_map map]. pose proof Ht as Ht'. apply entry_time_has in Ht'. rewrite Ht'.
    cbn [List.app map]. f_equal.
    - apply time_index. split; [|exact Hn]. now apply (distinct_first db e t).
    - apply IH. intros x Hx. apply Hi. now right. }
  apply G. apply incl_refl.
Qed.
End ReaderProofs.

Section FullRoundTrip.
Context {num bytes : Type}.
Variable to_float : bytes -> string -> option num.
Variable np_has : string -> bool.
Variable num_eqb : num -> num -> bool.
Variable nonneg : num -> bool.
Hypothesis eqb_spec : forall x y, num_eqb x y = true <-> x = y.
Local Notation run := (@run num bytes to_float).

Lemma clean_dict_num d : forall z n js z' n' k (x : num),
  clean_dict to_float d z n = (js, z', n') ->
  dget k d = Some (@VNum num bytes x) -> dget k js = Some (JNum x).
Proof.
  induction d as [|[k0 v] d IH]; intros z n js z' n' k x H Hk; cbn in H, Hk; [discriminate|].
  destruct (clean_value to_float v z n) as [[j z1] n1] eqn:E1.
  destruct (clean_dict to_float d z1 n1) as [[js' z2] n2] eqn:E2.
  injection H as <- <- <-. cbn. destruct (String.eqb k k0).
  - injection Hk as ->. cbn in E1. congruence.
  - eapply IH; eauto.
Qed.
Lemma run_writes_num rs : forall s, in_context s = true ->
  exists jss, database (run s (map Write rs)) = (database s ++ jss)%list /\
  Forall2 (fun d js => forall k x, dget k d = Some (@VNum num bytes x) -> dget k js = Some (JNum x)) rs jss.
Proof.
  induction rs as [|r rs IH]; intros s Hs.
  - exists []. rewrite app_nil_r. split; [reflexivity|constructor].
  - cbn [map]. change (run s (Write r :: map Write rs))
      with (run (fst (step to_float s (Write r))) (map Write rs)).
    cbn [OutputsModel.step]. unfold write. rewrite Hs.
    destruct (clean_dict to_float r (archive s) (array_number s)) as [[js z1] n1] eqn:E.
    cbn [fst].
    destruct (IH (Saver true (database s ++ [js])%list z1 n1) eq_refl) as (jss & -> & F).
    exists (js :: jss). cbn [database]. rewrite <- app_assoc. split; [reflexivity|].
    constructor; [|exact F]. intros k x. eapply clean_dict_num. exact E.
Qed.
Lemma Forall2_nth_r {A B} (P : A -> B -> Prop) l l' i b : Forall2 P l l' ->
  nth_error l' i = Some b -> exists a, nth_error l i = Some a /\ P a b.
Proof.
  intros F. revert i. induction F as [|x y l l' H F IH]; intros [|i] E; cbn in E; try discriminate.
  - injection E as <-. exists x. split; [reflexivity|exact H].
  - destruct (IH i E) as (a & ? & ?). exists a. split; assumption.
Qed.
Lemma Forall2_nth_l {A B} (P : A -> B -> Prop) l l' i a : Forall2 P l l' ->
  nth_error l i = Some a -> exists b, nth_error l' i = Some b /\ P a b.
Proof.
  intros F. revert i. induction F as [|x y l l' H F IH]; intros [|i] E; cbn in E; try discriminate.
  - injection E as <-. exists y. split; [reflexivity|exact H].
  - destruct (IH i E) as (b & ? & ?). exists b. split; assumption.
Qed.

Theorem reader_round_trip hist rs times :
  Forall (Forall (fun kv => storable np_has (snd kv))) rs ->
  Forall2 (fun r t => dget "time" r = Some (VNum t) /\ nonneg t = true) rs times ->
  NoDup times ->
  let s := run new_saver (hist ++ Enter :: map Write rs) in
  forall i r t, nth_error rs i = Some r -> nth_error times i = Some t ->
  exists r', record_reads_as to_float r r' /\
    reader_getitem np_has num_eqb nonneg (archive s) (database s) (ITime t) = Ok (RAtTime r').
Proof.
  intros Hst Ht ND s i r t Hr Hi.
  pose proof (round_trip to_float np_has hist rs Hst) as RT. cbv zeta in RT. fold s in RT.
  assert (Hnum : Forall2 (fun d js => forall k x, dget k d = Some (@VNum num bytes x) ->
            dget k js = Some (JNum x)) rs (database s)).
  { unfold s, OutputsModel.run. rewrite fold_left_app. cbn [fold_left].
    set (s0 := fold_left _ hist new_saver).
    change (fold_left _ (map Write rs) (fst (step to_float s0 Enter)))
      with (run (enter s0) (map Write rs)).
    destruct (run_writes_num rs (enter s0) eq_refl) as (jss & -> & F). exact F. }
  assert (D : distinct_times (database s)).
  { intros a b e e' t0 Ha Hb Ta Tb.
    destruct (Forall2_nth_r _ _ _ _ _ Hnum Ha) as (ra & Ra & Pa).
    destruct (Forall2_nth_r _ _ _ _ _ Hnum Hb) as (rb & Rb & Pb).
    destruct (Forall2_nth_l _ _ _ _ _ Ht Ra) as (ta & Na & Da & _).
    destruct (Forall2_nth_l _ _ _ _ _ Ht Rb) as (tb & Nb & Db & _).
    apply Pa in Da. apply Pb in Db. unfold has_time in *.
    assert (ta = tb) by congruence. subst tb.
    rewrite NoDup_nth_error in ND. apply ND; [|congruence].
    apply nth_error_Some. congruence. }
  destruct (Forall2_nth_l _ _ _ _ _ RT Hr) as (js & Hjs & r' & Hr' & Hread).
  exists r'. split; [exact Hr'|]. unfold reader_getitem.
  assert (G : getitem num_eqb nonneg (database s) (ITime t) = Ok (AtTime js)).
  { destruct (Forall2_nth_l _ _ _ _ _ Ht Hr) as (t' & Ht' & Dt & Hn).
    assert (t' = t) by congruence. subst t'.
    destruct (Forall2_nth_l _ _ _ _ _ Hnum Hr) as (js' & Hjs' & Pj).
    assert (js' = js) by congruence. subst js'.
    apply Pj in Dt. apply time_index; [exact eqb_spec|]. split; [|exact Hn].
    apply (distinct_first (database s) js t D); [|exact Dt].
    eapply nth_error_In. exact Hjs. }
  rewrite G. cbn [bind read_item]. rewrite Hread. reflexivity.
Qed.
End FullRoundTrip.
