(** Specification vocabulary for elastic constants (C15 to C18). *)
From Coq Require Import String List Reals.
From Verif Require Import MaterialModel.
Import ListNotations.
Local Open Scope R_scope.

(** [is_material c]: the six numbers are the constants of one isotropic material with
    a positive Young's modulus and -1 < v < 1/2 (the stable ones): the defining
    relations of linear elasticity. *)
Definition is_material (c : prop -> R) : Prop :=
  0 < c pE /\ -1 < c pv < 1 / 2 /\
  c pE = 2 * c pG * (1 + c pv) /\
  c pE = 3 * c pK * (1 - 2 * c pv) /\
  c pLam = c pK - 2 / 3 * c pG /\
  c pM = c pLam + 2 * c pG.

(** The dictionary {name of p: value, name of q: value}. *)
Definition pair_of (c : prop -> R) (p q : prop) : list (string * option R) :=
  [(name_of p, Some (c p)); (name_of q, Some (c q))].

(** The last value given to property [p] of material [i] in a history, if any. *)
Fixpoint last_given (i : nat) (p : prop) (os : list eop) : option R :=
  match os with
  | [] => None
  | o :: os' =>
      match last_given i p os' with
      | Some x => Some x
      | None =>
          match o with
          | Construct j l => if Nat.eqb j i then
              fold_left (fun acc qx => if prop_eqb (fst qx) p then Some (snd qx) else acc) l None else None
          | Assign j q x => if andb (Nat.eqb j i) (prop_eqb q p) then Some x else None
          | Delete _ => None
          end
      end
  end.

(** A history in which every material is made once, with one value for each of the two
    properties [p] and [q] in some order, and later changes only concern [p] and [q] of
    materials that were made before. [made] are the materials made so far. *)
Inductive pair_history (p q : prop) : list nat -> list eop -> Prop :=
  | ph_nil made : pair_history p q made []
  | ph_make made i x y os : ~ In i made ->
      pair_history p q (i :: made) os -> pair_history p q made (Construct i [(p, x); (q, y)] :: os)
  | ph_make' made i x y os : ~ In i made ->
      pair_history p q (i :: made) os -> pair_history p q made (Construct i [(q, y); (p, x)] :: os)
  | ph_set made i r x os : In i made -> r = p \/ r = q ->
      pair_history p q made os -> pair_history p q made (Assign i r x :: os).
Definition made_in (i : nat) (os : list eop) : Prop := exists l, In (Construct i l) os.

(** The calls of a list that ask for something no earlier call asked for. *)
Fixpoint first_requests {C A} (same : C * A -> C * A -> bool) (seen l : list (C * A)) : list (C * A) :=
  match l with
  | [] => []
  | x :: l' => if existsb (fun y => same y x) seen then first_requests same (seen ++ [x]) l'
               else x :: first_requests same (seen ++ [x]) l'
  end.
