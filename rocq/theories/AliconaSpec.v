(** What an Alicona file is: how its header and its depth data are written. *)
From Coq Require Import List Bool ZArith Ascii String.
From Verif Require Import FileNumModel TstModel TstSpec AliconaModel.
Import ListNotations.
Local Open Scope Z_scope.

(** Lines of the header: a key in 20 bytes and a value in 30 bytes, filled with zeros, and the end of the line, with or
    without a carriage return. *)
Definition fill (n : nat) (t : text) : text := t ++ repeat zero (n - List.length t).
Definition al_line (eol key value : text) : text := fill 20 key ++ fill 30 value ++ eol ++ [newline].
Definition clean (t : text) : Prop := Forall (fun c => is_ascii c /\ c <> zero /\ c <> newline) t.
Definition is_eol (eol : text) : Prop := eol = [] \/ eol = [ascii_of_N 13].

Record al_file := { a_type : text; a_version : Z; a_tags : list (text * text); a_comment : text; a_gap : text; a_depth : list (list text) }.
Definition al_header (eol : text) (a : al_file) : text :=
  a_type a ++ [zero] ++ eol ++ [newline] ++ al_line eol (txt "Version") (py_str (a_version a)) ++ al_line eol (txt "TagCount") (py_str (Z.of_nat (List.length (a_tags a)))) ++
  List.concat (map (fun kv => al_line eol (fst kv) (snd kv)) (a_tags a)) ++ al_line eol (txt "Comment") (a_comment a) ++ a_gap a.
Definition al_text (eol : text) (a : al_file) : text := al_header eol a ++ List.concat (map (fun row => List.concat row) (a_depth a)).
(** The text of the last tag with a name. *)
Definition last_tag (k : text) (kvs : list (text * text)) : option text :=
  fold_left (fun o kv => if text_eqb (fst kv) k then Some (snd kv) else o) kvs None.
(** It is a number. *)
Definition tag_number (k : string) (a : al_file) (z : Z) : Prop := exists t, last_tag (txt k) (a_tags a) = Some t /\ py_int t = Some z.
(** A file without icon and texture, whose offsets and sizes are right; a row of depths in the file has [stride] values,
    of which [cols] belong to the image. *)
Definition al_right (eol : text) (a : al_file) (stride cols : nat) : Prop :=
  clean (a_type a) /\ 0 <= a_version a /\ clean (a_comment a) /\
  Forall (fun kv => clean (fst kv) /\ (List.length (fst kv) <= 20)%nat /\ clean (snd kv) /\ fst kv <> txt "Comment") (a_tags a) /\
  (exists z, tag_number "IconOffset" a z /\ z <= 0) /\ tag_number "TextureImageOffset" a 0 /\
  tag_number "Rows" a (Z.of_nat (List.length (a_depth a))) /\ tag_number "Cols" a (Z.of_nat cols) /\
  tag_number "DepthImageOffset" a (Z.of_nat (List.length (al_header eol a))) /\
  a_depth a <> [] /\ (0 < stride)%nat /\ Forall (fun row => List.length row = stride /\ Forall (fun c => List.length c = 4%nat) row) (a_depth a).
