(** C70: the numbers of output files. *)
From Coq Require Import List Bool ZArith Ascii String Lia.
From Verif Require Import FileNumModel FileNumSpec FileNumProofs.
Import ListNotations.
Local Open Scope Z_scope.

(** The returned text is a number of at least one in decimal digits, larger than every number which
    is the name (up to the suffix) of a file in the directory. *)
Theorem c70_larger (d : dir) : exists k, 1 <= k /\ written (get_next_file_num d) k /\
  forall f n, In (f, true) d -> py_int (stem f) = Some n -> n < k.
Proof.
  exists (highest_num d + 1). pose proof (highest_0 d) as H. split; [lia|]. split.
  - apply py_str_written. lia.
  - intros f n I E. pose proof (proj2 (scan_all d 0) f n I E). unfold highest_num. lia.
Qed.
Print Assumptions c70_larger.
(** It is the smallest such number: one, or one more than the number of a file. *)
Theorem c70_smallest (d : dir) : written (get_next_file_num d) 1 \/
  exists f n, In (f, true) d /\ py_int (stem f) = Some n /\ written (get_next_file_num d) (n + 1).
Proof.
  pose proof (highest_0 d) as H. destruct (scan_least d 0) as [E|(f & I & E)].
  - left. unfold get_next_file_num, highest_num. rewrite E. apply py_str_written. lia.
  - right. exists f, (highest_num d). repeat split; [exact I|exact E|]. apply py_str_written. lia.
Qed.
Print Assumptions c70_smallest.
(** A new file of this name with any one suffix doesn't overwrite a file. *)
Theorem c70_fresh (d : dir) (suf : name) : suffix suf ->
  ~ In ((get_next_file_num d ++ suf)%list, true) d.
Proof.
  intros S I. destruct (c70_larger d) as (k & K & W & L).
  specialize (L _ k I). rewrite (stem_suffix _ _ k W S) in L. specialize (L (written_int _ _ W)). lia.
Qed.
Print Assumptions c70_fresh.
(** The answer doesn't depend on the order in which the directory is listed. *)
Theorem c70_order (d d' : dir) : (forall f b, In (f, b) d <-> In (f, b) d') ->
  get_next_file_num d = get_next_file_num d'.
Proof.
  intro H. unfold get_next_file_num. f_equal. f_equal.
  assert (A : forall d d' : dir, (forall f b, In (f, b) d -> In (f, b) d') -> highest_num d <= highest_num d').
  { clear. intros d d' H. destruct (scan_least d 0) as [E|(f & I & E)].
    - unfold highest_num at 1. rewrite E. apply highest_0.
    - apply (proj2 (scan_all d' 0) f); [now apply H|exact E]. }
  apply Z.le_antisymm; apply A; intros f b; apply H.
Qed.
Print Assumptions c70_order.
(** Over a whole history of outputs, with other files and directories made at any time and nothing
    deleted, no number is given out twice. *)
Theorem c70_history (d : dir) (es : list event) : suffixes es -> NoDup (given d es).
Proof.
  enough (G : forall d, suffixes es -> NoDup (given d es) /\
    forall n, In n (given d es) -> exists k, n = py_str k /\ highest_num d < k).
  { intro S. now apply G. }
  clear d. induction es as [|e es IH]; intros d S; cbn.
  - split; [constructor|easy].
  - assert (S' : suffixes es) by (intros s I; apply S; now right).
    destruct (IH (happen d e) S') as [N B]. pose proof (highest_0 d) as P. destruct e as [suf|f b]; cbn [app].
    + assert (H : highest_num (happen d (Output suf)) = highest_num d + 1).
      { cbn [happen]. rewrite highest_app. cbn. unfold get_next_file_num.
        rewrite (stem_suffix _ _ (highest_num d + 1)), py_int_str.
        - destruct (Z.ltb_spec (highest_num d) (highest_num d + 1)); lia.
        - lia.
        - apply py_str_written. lia.
        - apply S. now left. }
      rewrite H in B. split.
      * constructor; [|exact N]. intro I. destruct (B _ I) as (k & E & L).
        apply py_str_inj in E; lia.
      * intros n [<-|I]; [exists (highest_num d + 1); split; [reflexivity|lia]|].
        destruct (B n I) as (k & E & L). exists k. split; [exact E|lia].
    + split; [exact N|]. intros n I. destruct (B n I) as (k & E & L). exists k. split; [exact E|].
      cbn [happen] in L. rewrite highest_app in L. pose proof (scan_le (highest_num d) (f, b)). lia.
Qed.
Print Assumptions c70_history.
Definition txt (s : string) : name := list_ascii_of_string s.
Example c70_example :
  let d := [(txt "9.sos", true); (txt " 1_0 .sos", true); (txt "-40", true); (txt "12", false); (txt "x7.sos", true)] in
  get_next_file_num d = txt "11" /\
  given d [Output (txt ".sos"); Other (txt "20.txt") true; Output (txt ".sos"); Output []] = [txt "11"; txt "21"; txt "22"].
Proof. split; vm_compute; reflexivity. Qed.

(** Refuted: a directory of that name is not noticed. *)
Theorem c70_directory_refuted (k : Z) : 1 <= k ->
  exists d, In (py_str k, false) d /\ get_next_file_num d = py_str k.
Proof.
  intro K. exists [(py_str (k - 1), true); (py_str k, false)]. split; [right; now left|].
  unfold get_next_file_num. f_equal. unfold highest_num. cbn -[Z.add].
  rewrite <- (app_nil_r (py_str (k - 1))), (stem_suffix _ _ (k - 1)), py_int_str.
  - destruct (Z.ltb_spec 0 (k - 1)); lia.
  - lia.
  - apply py_str_written. lia.
  - now left.
Qed.
Print Assumptions c70_directory_refuted.
(** Refuted: files with two suffixes are not noticed, so that they can be overwritten. *)
Theorem c70_two_suffixes_refuted (a b : name) : ~ In dot a -> ~ In dot b -> ~ In "_"%char a ->
  (exists c, In c a /\ is_digit c = false /\ is_space c = false) ->
  let suf := (dot :: a ++ dot :: b)%list in
  exists d, In ((get_next_file_num d ++ suf)%list, true) d.
Proof.
  intros A B U (c & I & ND & NS) suf. exists [((py_str 1 ++ suf)%list, true)]. left. f_equal.
  unfold get_next_file_num, highest_num. cbn [fold_left scan].
  assert (E : stem (py_str 1 ++ suf) = (py_str 1 ++ dot :: a)%list).
  { unfold stem. rewrite (last_dot_app (py_str 1) suf (dot :: a)).
    - cbn. reflexivity.
    - unfold suf. change (dot :: a ++ dot :: b)%list with ((dot :: a) ++ dot :: b)%list.
      rewrite (last_dot_app _ (dot :: b) []); [now rewrite app_nil_r|]. cbn. now rewrite no_dot. }
  rewrite E. replace (py_int (py_str 1 ++ dot :: a)) with (@None Z); [reflexivity|].
  symmetry. unfold py_int. change (py_str 1) with ["1"%char].
  unfold strip. cbn [app lstrip is_space]. cbn -[lstrip rev digits].
  assert (L : exists t, lstrip (rev ("1"%char :: dot :: a)) = (rev t ++ [dot; "1"%char])%list).
  { cbn [rev]. rewrite <- app_assoc. cbn [app]. clear. induction (rev a) as [|x l IH].
    - now exists [].
    - cbn. destruct (is_space x); [exact IH|]. exists (rev (x :: l)). now rewrite rev_involutive. }
  destruct L as [t L]. rewrite L. rewrite rev_app_distr, rev_involutive. reflexivity.
Qed.
Print Assumptions c70_two_suffixes_refuted.
Example c70_two_suffixes_example :
  get_next_file_num [(txt "1.tar.gz", true)] = txt "1".
Proof. vm_compute. reflexivity. Qed.
(** Refuted: asking for a number doesn't reserve it. Two programs which ask before either of them
    writes get the same name, and the number of the newest file is used again once it is deleted. *)
Theorem c70_reserved_refuted (d : dir) (suf : name) : suffix suf ->
  let n := get_next_file_num d in
  (forall f b, py_int (stem f) = None -> get_next_file_num (d ++ [(f, b)]) = n) /\
  get_next_file_num (removelast (d ++ [((n ++ suf)%list, true)])) = n.
Proof.
  intros S n. split.
  - intros f b E. unfold n, get_next_file_num. rewrite highest_app. cbn. rewrite E. now destruct b.
  - now rewrite removelast_last.
Qed.
Print Assumptions c70_reserved_refuted.
