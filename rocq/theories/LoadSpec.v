(** Words used in the statements about making surfaces from arrays and files. *)
From Coq Require Import String Ascii List Bool Arith Reals.
From Verif Require Import Py SurfaceModel Flt LoadModel.
Import ListNotations.
Local Open Scope R_scope.

(** ** Text *)
(** White space in ASCII: tab, line feed, vertical tab, form feed, carriage return, the four separators and the space. *)
Definition white (c : ascii) : Prop := In (nat_of_ascii c) [9; 10; 11; 12; 13; 28; 29; 30; 31; 32]%nat.
(** Text without white space, and white space only. *)
Fixpoint solid (s : string) : Prop := match s with EmptyString => True | String c r => ~ white c /\ solid r end.
Fixpoint spaces (s : string) : Prop := match s with EmptyString => True | String c r => white c /\ spaces r end.
(** Words, each with the space after it. *)
Fixpoint spaced (l : list (string * string)) : string :=
  match l with [] => EmptyString | (w, sp) :: r => (w ++ sp ++ spaced r)%string end.
(** Every word has space after it, except perhaps the last. *)
Fixpoint apart (l : list (string * string)) : Prop :=
  match l with
  | [] => True
  | [(w, sp)] => solid w /\ w <> EmptyString /\ spaces sp
  | (w, sp) :: r => solid w /\ w <> EmptyString /\ spaces sp /\ sp <> EmptyString /\ apart r
  end.
(** The numbers in a row of fields: with one field its words, otherwise the fields with something in them. *)
Definition numbers_of (parse : string -> option flt) (row : list string) (v : list flt) : Prop :=
  match row with
  | [s] => Forall2 (fun w x => parse w = Some x) (words s) v
  | _ => Forall2 (fun w x => parse w = Some x) (filter nonempty row) v
  end.
(** The rows that are kept: those with fields which are all numbers. *)
Inductive kept (parse : string -> option flt) : list (list string) -> list (list flt) -> Prop :=
| kept_none : kept parse [] []
| kept_row row v rows out : row <> [] -> numbers_of parse row v -> kept parse rows out -> kept parse (row :: rows) (v :: out)
| kept_not row rows out : (row = [] \/ forall v, ~ numbers_of parse row v) -> kept parse rows out -> kept parse (row :: rows) out.
(** Rows of one length, and the array that holds them. *)
Definition even (c : nat) (rows : list (list flt)) : Prop := Forall (fun r => List.length r = c) rows.
Definition holds (t : table) (rows : list (list flt)) (c : nat) : Prop :=
  t_rows t = List.length rows /\ t_cols t = c /\ forall i j, (i < t_rows t)%nat -> (j < c)%nat -> t_at t i j = nth j (nth i rows []) NaN.
(** A way to write some numbers that are read back: something without spaces. (No text can hold every real.) *)
Definition readable (parse : string -> option flt) (show : flt -> string) (numbers : list flt) : Prop :=
  forall x, In x numbers -> parse (show x) = Some x /\ solid (show x) /\ show x <> EmptyString.
(** A row of numbers with one left empty, a list without one of its entries. *)
Definition without {A} (j : nat) (l : list A) : list A := firstn j l ++ skipn (S j) l.
Definition emptied (j : nat) (l : list string) : list string := firstn j l ++ EmptyString :: skipn (S j) l.

(** ** Geometry *)
(** A surface with a profile of r by c points, a spacing h and the extent of that many spacings. *)
Definition spaced_surface (s : surface) (t : table) (h : R) : Prop :=
  heights s = Some (Filled t) /\ geometry s = Geom (Some (INR (t_rows t) * h, INR (t_cols t) * h)) (Some (t_rows t, t_cols t)) (Some h) (Some (t_rows t, t_cols t)) /\
  is_discrete s = true.
(** A surface with a profile and neither spacing nor extent. *)
Definition bare_surface (s : surface) (t : table) : Prop :=
  heights s = Some (Filled t) /\ geometry s = Geom None (Some (t_rows t, t_cols t)) None (Some (t_rows t, t_cols t)) /\ is_discrete s = true.
