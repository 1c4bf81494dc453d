(** Model of [solve_normal_interference] (slippy/contact/_step_utils.py:443-630) and
    [guess_loads_from_displacement] (slippy/contact/influence_matrix_utils.py:12-42).
    Arrays are flattened to n nodes; printing and warnings are left out. *)
From Coq Require Import String List Bool Arith ZArith Reals.
From Verif Require Export Py SurfaceModel Flt SolverModel.
Import ListNotations.
Local Open Scope R_scope.

Definition mask := nat -> bool.

(** ** [guess_loads_from_displacement] (influence_matrix_utils.py:12-42) *)
(** [np.nan_to_num]: infinities become the largest numbers, here [big]. *)
Definition nan_to_num (big : R) (a : flt) : flt :=
  match a with Fin x => Fin x | NaN => Fin 0 | PInf => Fin big | NInf => Fin (- big) end.
(** [max] of a list of numbers *)
Definition list_max (l : list R) : result R :=
  match l with [] => Err ValueError | x :: l' => Ok (fold_left (fun m y => if Rltb m y then y else m) l' x) end.
(** One direction (lines 34-40); the component is [None] when its name isn't in the dict. *)
Definition guess_direction (big : R) (disp : option vec) (comp : option (list R)) : result (option vec) :=
  match disp with
  | None => Ok None
  | Some d => match comp with
              | None => Err KeyError
              | Some c => bind (list_max c) (fun m => Ok (Some (fun i => nan_to_num big (fmul (d i) (Fin m)))))
              end
  end.
(** The three directions in turn; the components are xx, yy and zz. *)
Definition guess_loads (big : R) (dx dy dz : option vec) (cx cy cz : option (list R)) :
    result (option vec * option vec * option vec) :=
  bind (guess_direction big dx cx) (fun x => bind (guess_direction big dy cy) (fun y =>
  bind (guess_direction big dz cz) (fun z => Ok (x, y, z)))).

(** ** [solve_normal_interference] *)
(** What a callable adhesive pressure returns: a tuple of two or of three (line 606). *)
Inductive answer := Two (remove add : mask) | Three (remove add : mask) (force : bool).
(** The argument adhesive_pressure: it is called with the loads, the deformed gap and the nodes. *)
Inductive adhesion := NoAdhesion | Number (a : flt) | Function (f : vec -> vec -> mask -> answer).
(** The argument initial_guess_loads: a tuple of loads or an array, which has no field z. *)
Inductive guess := NoGuess | Tuple (z : vec) | Array (a : vec).

(** Both materials of the influence matrix kind: their convolutions and largest loads. The
    convolution in the domain (line 538), the one of the whole array and those of lines 560-561
    are arguments. [im] is the flattened influence matrix. *)
Record im_pair := ImPair { im : list R; conv_domain : mask -> vec -> vec; conv_all : mask -> vec -> vec;
                           conv_1 : vec -> vec; conv_2 : vec -> vec; max_load : flt }.
(** Other materials: the method loads_from_surface_displacement of the first one, which returns
    normal loads and a tuple of normal displacements; its answer may depend on the call. *)
Inductive materials := BothIm (p : im_pair) | Other (solve : nat -> vec -> result (vec * list vec)).

(** What the caller gets, and the array of contact nodes they passed in, as it is afterwards. *)
Record outcome := Outcome { o_loads : vec; o_disps : list vec; o_nodes : mask; o_failed : bool; o_passed : option mask }.

(** Lines 515 and 567-568 *)
Definition wanted (interference : flt) (gap : vec) : vec := fun i => fsub interference (gap i).
Definition request (z : vec) (nodes : mask) : vec := put (fun i => negb (nodes i)) (fun _ => NaN) z.

(** [l[k:]] *)
Definition slice_from {A} (k : Z) (l : list A) : list A :=
  if (k <? 0)%Z then skipn (List.length l - Z.to_nat (- k)) l else skipn (Z.to_nat k) l.

Section Loop.
Variables (n : nat) (gap : vec) (interference : flt) (adh : adhesion) (solve : nat -> vec -> result (vec * list vec)).
(** [np.argpartition(a, kth)] *)
Variable argpartition : vec -> Z -> list nat.
Variables (max_iter : Z) (remove_percent node_thresh_percent : R).

(** Line 597: added_nodes_last_it is [None] while it is infinite. *)
Definition max_remove (contact : nat) (added : option nat) : Z :=
  let a := INR contact * remove_percent in
  trunc (match added with
         | Some k => if Rltb (1 / 2 * INR k) a then 1 / 2 * INR k else a
         | None => a
         end).
(** Lines 590-607: the nodes to remove and to add, and force_another_iteration. *)
Definition choose (loads deformed : vec) (nodes : mask) (added : option nat) : result (mask * mask * bool) :=
  match adh with
  | Function f => match f loads deformed nodes with
                  | Two _ _ => Err ValueError
                  | Three r a force => Ok (r, a, force)
                  end
  | NoAdhesion | Number _ =>
      let p := match adh with Number a => a | _ => Fin 0 end in
      let remove := fun i => fltb (loads i) p && nodes i in
      let add := fun i => fltb (deformed i) (Fin 0) && negb (nodes i) in
      let limit := max_remove (count n nodes) added in
      if (limit <? Z.of_nat (count n remove))%Z then
        if ((- Z.of_nat n <=? - limit) && (- limit <? Z.of_nat n))%Z then
          let chosen := slice_from (- limit) (argpartition (fun i => fneg (loads i)) (- limit)) in
          Ok (fun i => existsb (Nat.eqb i) chosen, add, true)
        else Err ValueError
      else Ok (remove, add, false)
  end.
(** Lines 609-620: the next nodes and the next added_nodes_last_it, or [None] to stop. *)
Definition update (remove add : mask) (force : bool) (nodes : mask) (added : option nat) : option (mask * option nat) :=
  if force || any n remove || Rltb (INR (count n nodes) * node_thresh_percent) (INR (count n add)) then
    let k := count n add in
    Some (fun i => (nodes i || add i) && negb (remove i), if Nat.eqb k 0 then added else Some k)
  else None.
(** [while True] (lines 574-630), for at most [fuel] passes; [it] is it_num. The arrays of a
    failed solution are filled with not a number. *)
Fixpoint loop (fuel it : nat) (passed : bool) (nodes : mask) (added : option nat) : option (result outcome) :=
  match fuel with
  | O => None
  | S k =>
      match solve it (request (wanted interference gap) nodes) with
      | Err e => Some (Err e)
      | Ok (loads, disps) =>
          match disps with
          | [] => Some (Err IndexError)
          | total :: _ =>
              let deformed := fun i => fadd (fsub (gap i) interference) (total i) in
              match choose loads deformed nodes added with
              | Err e => Some (Err e)
              | Ok (remove, add, force) =>
                  match update remove add force nodes added with
                  | None => Some (Ok (Outcome loads disps nodes false (if passed then Some nodes else None)))
                  | Some (nodes', added') =>
                      if (max_iter <? Z.of_nat (S it))%Z then
                        Some (Ok (Outcome (fun _ => NaN) disps nodes' true (if passed then Some nodes' else None)))
                      else loop k (S it) passed nodes' added'
                  end
              end
          end
      end
  end.
End Loop.

(** The whole function. [fuel] bounds the passes of either loop; None when it isn't enough. *)
Definition solve_normal_interference (fuel n : nat) (big : R) (argpartition : vec -> Z -> list nat) (mats : materials)
    (interference : flt) (gap : vec) (adh : adhesion) (contact_nodes : option mask) (max_iter : Z) (tol : flt)
    (initial : guess) (remove_percent node_thresh_percent : R) : option (result outcome) :=
  let z := wanted interference gap in
  let nodes := match contact_nodes with Some m => m | None => fun i => fltb (Fin 0) (z i) end in
  let zero : vec := fun _ => Fin 0 in
  if negb (any n nodes) then Some (Ok (Outcome zero [zero; zero; zero] nodes false contact_nodes))
  else match mats with
  | Other solve => loop n gap interference adh solve argpartition max_iter remove_percent node_thresh_percent
                     fuel 0 (match contact_nodes with Some _ => true | None => false end) nodes None
  | BothIm p =>
      match bind (match initial with
                  | NoGuess => bind (guess_direction big (Some z) (Some (im p)))
                                 (fun g => match g with Some v => Ok v | None => Err AttributeError end)
                  | Tuple v => Ok v
                  | Array _ => Err AttributeError
                  end)
                 (fun x0 => match adh with NoAdhesion => Ok (x0, Fin 0) | Number a => Ok (x0, a) | Function _ => Err TypeError end)
      with
      | Err e => Some (Err e)
      | Ok (x0, a) =>
          let dom := filter nodes (seq 0 n) in
          match bccg fuel (List.length dom) (conv_domain p nodes) (gather dom z) tol (Some max_iter) (gather dom x0) a
                  (fun _ => max_load p) 1 with
          | None => None
          | Some (in_domain, failed) =>
              let full := scatter dom in_domain in
              Some (Ok (Outcome full [conv_all p nodes in_domain; conv_1 p full; conv_2 p full]
                (fun i => fltb a (full i) && negb (match full i with Fin x => Reqb x 0 | _ => false end)) failed contact_nodes))
          end
      end
  end.
