(** Model of the elastic constants: [_get_properties]
    (slippy/contact/_material_utils.py:159-288), the property store of [Elastic]
    (slippy/contact/materials.py:472-490, 580-608, 610-686) and [memoize_components]
    (_material_utils.py:14-85). Floats are real numbers. *)
From Coq Require Import String List Bool Reals.
From Verif Require Export Py.
Import ListNotations.
Local Open Scope R_scope.

(** The valid keys (_material_utils.py:189), in the order Python sorts them in. *)
Inductive prop := pE | pG | pK | pLam | pM | pv.
Definition prop_index (p : prop) : nat :=
  match p with pE => 0 | pG => 1 | pK => 2 | pLam => 3 | pM => 4 | pv => 5 end.
Definition prop_eqb (p q : prop) : bool := Nat.eqb (prop_index p) (prop_index q).
Definition prop_of (s : string) : option prop :=
  if String.eqb s "E" then Some pE else if String.eqb s "G" then Some pG
  else if String.eqb s "K" then Some pK else if String.eqb s "Lam" then Some pLam
  else if String.eqb s "M" then Some pM else if String.eqb s "v" then Some pv else None.

(** A full set of constants, and [out = set_props.copy(); out[..] = ..]. *)
Definition consts := prop -> R.
Definition given (E G K Lam M v : R) : consts :=
  fun p => match p with pE => E | pG => G | pK => K | pLam => Lam | pM => M | pv => v end.

(** The branches of _material_utils.py:208-286 for a sorted pair of different keys with
    the values [x] and [y]. The call of a number in line 279 is a TypeError. *)
Definition convert (a b : prop) (x y : R) : result consts :=
  match a, b with
  | pE, pG => let E := x in let G := y in
      Ok (given E G (E * G / (3 * (3 * G - E))) (G * (E - 2 * G) / (3 * G - E))
                (G * (4 * G - E) / (3 * G - E)) (E / (2 * G) - 1))
  | pE, pK => let E := x in let K := y in
      Ok (given E (3 * K * E / (9 * K - E)) K (3 * K * (3 * K - E) / (9 * K - E))
                (3 * K * (3 * K + E) / (9 * K - E)) ((3 * K - E) / (6 * K)))
  | pE, pLam => let E := x in let Lam := y in
      let R_ := sqrt (E ^ 2 + 9 * Lam ^ 2 + 2 * E * Lam) in
      Ok (given E ((E - 3 * Lam + R_) / 4) ((E + 3 * Lam + R_) / 6) Lam
                ((E - Lam + R_) / 2) (2 * Lam / (E + Lam + R_)))
  | pE, pM => let E := x in let M := y in
      let S_ := sqrt (E ^ 2 + 9 * M ^ 2 - 10 * E * M) in
      Ok (given E ((3 * M + E - S_) / 8) ((3 * M - E + S_) / 6) ((M - E + S_) / 4) M
                ((E - M + S_) / (4 * M)))
  | pE, _ => let E := x in let v := y in
      Ok (given E (E / (2 * (1 + v))) (E / (3 * (1 - 2 * v)))
                (E * v / ((1 + v) * (1 - 2 * v))) (E * (1 - v) / ((1 + v) * (1 - 2 * v))) v)
  | pG, pK => let G := x in let K := y in
      Ok (given (9 * K * G / (3 * K + G)) G K (K - 2 * G / 3) (K + 4 * G / 3)
                ((3 * K - 2 * G) / (2 * (3 * K + G))))
  | pG, pLam => let G := x in let Lam := y in
      Ok (given (G * (3 * Lam + 2 * G) / (Lam + G)) G (Lam + 2 * G / 3) Lam (Lam + 2 * G)
                (Lam / (2 * (Lam + G))))
  | pG, pM => let G := x in let M := y in
      Ok (given (G * (3 * M - 4 * G) / (M - G)) G (M - 4 * G / 3) (M - 2 * G) M
                ((M - 2 * G) / (2 * M - 2 * G)))
  | pG, _ => let G := x in let v := y in
      Ok (given (2 * G * (1 + v)) G (2 * G * (1 + v) / (3 * (1 - 2 * v)))
                (2 * G * v / (1 - 2 * v)) (2 * G * (1 - v) / (1 - 2 * v)) v)
  | pK, pLam => let K := x in let Lam := y in
      Ok (given (9 * K * (K - Lam) / (3 * K - Lam)) (3 * (K - Lam) / 2) K Lam
                (3 * K - 2 * Lam) (Lam / (3 * K - Lam)))
  | pK, pM => let K := x in let M := y in
      Ok (given (9 * K * (M - K) / (3 * K + M)) (3 * (M - K) / 4) K ((3 * K - M) / 2) M
                ((3 * K - M) / (3 * K + M)))
  | pK, _ => let K := x in let v := y in
      Ok (given (3 * K * (1 - 2 * v)) ((3 * K * (1 - 2 * v)) / (2 * (1 + v))) K
                (3 * K * v / (1 + v)) (3 * K * (1 - v) / (1 + v)) v)
  | pLam, pM => let Lam := x in let M := y in
      Ok (given ((M - Lam) * (M + 2 * Lam) / (M + Lam)) ((M - Lam) / 2) ((M + 2 * Lam) / 3)
                Lam M (Lam / (M + Lam)))
  | pLam, _ => Err TypeError
  | _, _ => let M := x in let v := y in
      Ok (given (M * (1 + v) * (1 - 2 * v) / (1 - v)) (M * (1 - 2 * v) / (2 * (1 - v)))
                (M * (1 + v) / (3 * (1 - v))) (M * v / (1 - v)) M v)
  end.

(** [_get_properties] on a dictionary (association list with distinct keys); a value of
    [None] makes the first formula raise a TypeError. *)
Definition get_properties (d : list (string * option R)) : result consts :=
  match d with
  | [(n1, v1); (n2, v2)] =>
      match prop_of n1, prop_of n2 with
      | Some p1, Some p2 =>
          match v1, v2 with
          | Some x, Some y =>
              if Nat.leb (prop_index p1) (prop_index p2) then convert p1 p2 x y else convert p2 p1 y x
          | _, _ => Err TypeError
          end
      | _, _ => Err ValueError
      end
  | _ => Err ValueError
  end.
Definition name_of (p : prop) : string :=
  match p with pE => "E" | pG => "G" | pK => "K" | pLam => "Lam" | pM => "M" | pv => "v" end.

(** ** The property store of the class [Elastic] *)

(** [self._properties] (values may be missing). *)
Definition props := prop -> option R.
Definition pset (d : props) (p : prop) (x : R) : props := fun q => if prop_eqb q p then Some x else d q.

(** The class attributes [_properties] and [_last_set] (materials.py:472-479; the list is
    kept with its last element first) and the instance attribute [_properties] of every
    material, [None] when the instance has none of its own. *)
Record classes := Classes {
  class_props : props;
  last_set : list prop;
  own_props : nat -> option props }.
Definition first_state : classes := Classes (fun _ => None) [] (fun _ => None).

Definition set_own (f : nat -> option props) (i : nat) (d : props) : nat -> option props :=
  fun j => if Nat.eqb j i then Some d else f j.

(** [_set_props] (materials.py:590-608) on material [i] for an allowed name. *)
Definition set_props (w : classes) (i : nat) (p : prop) (x : R) : classes * result unit :=
  let w1 := match own_props w i with
            | Some d => Classes (class_props w) (last_set w) (set_own (own_props w) i (pset d p x))
            | None => Classes (pset (class_props w) p x) (last_set w) (own_props w)
            end in
  let ls := match last_set w1 with
            | [] => [p]
            | q :: _ => if prop_eqb q p then last_set w1 else p :: last_set w1
            end in
  let w2 := Classes (class_props w1) ls (own_props w1) in
  match ls with
  | _ :: q :: _ =>
      let mine := match own_props w2 i with Some d => d | None => class_props w2 end in
      match get_properties [(name_of p, Some x); (name_of q, mine q)] with
      | Ok c => (Classes (class_props w2) ls (set_own (own_props w2) i (fun r => Some (c r))), Ok tt)
      | Err e => (w2, Err e)
      end
  | _ => (w2, Ok tt)
  end.

(** [__init__] (materials.py:482-489) of a new material [i]: set every property; stops at
    the first exception. *)
Fixpoint set_all (w : classes) (i : nat) (l : list (prop * R)) : classes * result unit :=
  match l with
  | [] => (w, Ok tt)
  | (p, x) :: l' => match set_props w i p x with
                    | (w', Ok _) => set_all w' i l'
                    | (w', Err e) => (w', Err e)
                    end
  end.
Definition construct (w : classes) (i : nat) (l : list (prop * R)) : classes * result unit :=
  if Nat.ltb 2 (length l) then (w, Err ValueError) else set_all w i l.

(** [_del_props] (materials.py:580-588): a list is never equal to a key, so every
    property is dropped. *)
Definition del_props (w : classes) (i : nat) : classes :=
  Classes (class_props w) (last_set w) (set_own (own_props w) i (fun _ => None)).

(** Reading a property (materials.py:610-613 etc.). *)
Definition read_prop (w : classes) (i : nat) (p : prop) : option R :=
  match own_props w i with Some d => d p | None => class_props w p end.

(** Histories over any number of materials. *)
Inductive eop := Construct (i : nat) (l : list (prop * R)) | Assign (i : nat) (p : prop) (x : R) | Delete (i : nat).
Definition estep (w : classes) (o : eop) : classes :=
  match o with
  | Construct i l => fst (construct w i l)
  | Assign i p x => fst (set_props w i p x)
  | Delete i => del_props w i
  end.
Definition erun (os : list eop) : classes := fold_left estep os first_state.

(** [speed_of_sound] (materials.py:716-728): a given density is stored on the material;
    returns the stored density and the speeds s and p. *)
Definition speed_of_sound (w : classes) (i : nat) (stored given_density : option R)
  : option R * result (R * R) :=
  let density := match given_density with Some d => Some d | None => stored end in
  (density,
   match density with
   | None => Err ValueError
   | Some rho => match read_prop w i pG, read_prop w i pM with
                 | Some G, Some M => Ok (sqrt (G / rho), sqrt (M / rho))
                 | _, _ => Err TypeError
                 end
   end).

(** ** [memoize_components] *)
Section Memo.
Variables Args Comp Val : Type.
(** Equality of bound arguments and of components, as Python's == sees it. *)
Variable args_eqb : Args -> Args -> bool.
Variable comp_eqb : Comp -> Comp -> bool.
(** The wrapped function. *)
Variable fn : Comp -> Args -> Val.

(** [spec] and [cache] (lines 45-46) as one list; [calls] are the calls of [fn] so far. *)
Record memo := Memo { entries : list (Args * list (Comp * Val)); calls : list (Comp * Args) }.
Fixpoint clookup (c : Comp) (l : list (Comp * Val)) : option Val :=
  match l with [] => None | (c', v) :: l' => if comp_eqb c' c then Some v else clookup c l' end.

(** The body of [inner] (lines 51-64): the entry with equal arguments is looked up or a
    new one is added at the end. *)
Fixpoint memo_in (es : list (Args * list (Comp * Val))) (c : Comp) (a : Args)
  : list (Args * list (Comp * Val)) * Val * list (Comp * Args) :=
  match es with
  | [] => let v := fn c a in ([(a, [(c, v)])], v, [(c, a)])
  | (a', d) :: es' =>
      if args_eqb a' a then
        match clookup c d with
        | Some v => (es, v, [])
        | None => let v := fn c a in ((a', d ++ [(c, v)]) :: es', v, [(c, a)])
        end
      else let '(es'', v, cs) := memo_in es' c a in ((a', d) :: es'', v, cs)
  end.
Definition memo_call (m : memo) (c : Comp) (a : Args) : memo * Val :=
  let '(es, v, cs) := memo_in (entries m) c a in (Memo es (calls m ++ cs), v).
Fixpoint memo_run (m : memo) (l : list (Comp * Args)) : memo * list Val :=
  match l with
  | [] => (m, [])
  | (c, a) :: l' => let '(m', v) := memo_call m c a in
                    let '(m'', vs) := memo_run m' l' in (m'', v :: vs)
  end.
Definition empty_memo : memo := Memo [] [].
End Memo.

(** The variant for methods (lines 66-79): [self] is neither part of the remembered
    arguments nor given to the wrapped function. *)
Definition method_call {Self Args Comp Val} (args_eqb : Args -> Args -> bool) (comp_eqb : Comp -> Comp -> bool)
    (fn : Comp -> Args -> Val) (m : memo Args Comp Val) (_ : Self) (c : Comp) (a : Args) :=
  memo_call Args Comp Val args_eqb comp_eqb fn m c a.
