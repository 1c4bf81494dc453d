(** How whole numbers are written as text, for [int] (C70): white space, a sign, digits with single underscores between
    them, white space. *)
From Coq Require Import List ZArith Ascii String.
From Verif Require Import FileNumModel FileNumSpec.
Import ListNotations.
Local Open Scope Z_scope.

Definition digit_list (ds : list Z) : Prop := ds <> [] /\ Forall (fun d => 0 <= d <= 9) ds.
(** Groups of digits, with an underscore before each but the first. *)
Definition grouped (first : list Z) (others : list (list Z)) : name :=
  map digit_char first ++ List.concat (map (fun g => "_"%char :: map digit_char g) others).
Definition white (n : name) : Prop := Forall (fun c => In (N_of_ascii c) [9; 10; 11; 12; 13; 32]%N) n.
Definition number_text (n : name) (z : Z) : Prop :=
  exists before sign first others after,
    white before /\ white after /\ digit_list first /\ Forall digit_list others /\
    n = before ++ sign ++ grouped first others ++ after /\
    (sign = [] /\ z = value (first ++ List.concat others) 0 \/
     sign = ["+"%char] /\ z = value (first ++ List.concat others) 0 \/
     sign = ["-"%char] /\ z = - value (first ++ List.concat others) 0).
