(** Model of [HeightOptimisationFunction] and [solve_normal_loading]
    (slippy/contact/_step_utils.py:67-379, 382-439) on the CPU. Grids are flattened to
    lists of real numbers; printing is left out. *)
From Coq Require Import List Bool Arith Reals.
From Verif Require Export Py.
Import ListNotations.
Local Open Scope R_scope.

Definition Rltb (x y : R) : bool := if Rlt_dec x y then true else false.
Definition Reqb (x y : R) : bool := if Req_EM_T x y then true else false.
Definition rsum (l : list R) : R := fold_right Rplus 0 l.

(** [bisect.bisect_left(a, x)] of the standard library: the loop on lo and hi; [fuel] is
    the length of the list, which bounds the number of rounds. *)
Fixpoint bisect_loop (a : list R) (x : R) (fuel lo hi : nat) : nat :=
  match fuel with
  | O => lo
  | S f => if Nat.ltb lo hi then
             let mid := Nat.div (lo + hi) 2 in
             if Rltb (nth mid a 0) x then bisect_loop a x f (S mid) hi else bisect_loop a x f lo mid
           else lo
  end.
Definition bisect_left (a : list R) (x : R) : nat := bisect_loop a x (length a) 0 (length a).

(** [l.insert(i, x)], [x in l] and [l.index(x)]. *)
Definition insert {A} (i : nat) (x : A) (l : list A) : list A := firstn i l ++ x :: skipn i l.
Definition rmem (x : R) (l : list R) : bool := existsb (Reqb x) l.
Fixpoint index_of (x : R) (l : list R) : nat :=
  match l with [] => O | y :: l' => if Reqb x y then O else S (index_of x l') end.

(** [a[mask]] and [b = zeros; b[mask] = a]. *)
Fixpoint select {A} (mask : list bool) (l : list A) : list A :=
  match mask, l with
  | b :: m, x :: l' => if b then x :: select m l' else select m l'
  | _, _ => []
  end.
Fixpoint scatter (mask : list bool) (l : list R) : list R :=
  match mask with
  | [] => []
  | true :: m => match l with x :: l' => x :: scatter m l' | [] => 0 :: scatter m [] end
  | false :: m => 0 :: scatter m l
  end.

(** What the constructor fixes (lines 103-163). [solver] is bccg (line 313) on the domain
    and the displacements in it, starting from zero (line 308); [disp1], [disp2] and
    [disp_total] are the convolutions of line 212 to 222. [cache_max] is False (line 140). *)
Record hconfig := HConfig {
  gap : list R;
  area : R;
  use_cache : bool;
  cache_loads : bool;
  cache_max : bool;
  solver : list bool -> list R -> list R * bool;
  disp1 : list R -> list R;
  disp2 : list R -> list R;
  disp_total : list R -> list R }.

(** [_results]: what a call stores (line 316) and what reading it makes of it (line 229). *)
Record full_results := Full {
  r_loads : list R;
  r_total_disp : list R;
  r_disp1 : list R;
  r_disp2 : list R;
  r_nodes : list bool;
  r_total_load : R;
  r_interference : R }.
Inductive stored := InDomain (loads : list R) (domain : list bool) (h : R) | Final (f : full_results).

(** The attributes which change. [surf_loads] is cache_surface_loads. *)
Record hstate := HState {
  heights : list R;
  total_loads : list R;
  surf_loads : list (list R);
  set_load : R;
  nodes : option (list bool);
  nodes_set : bool;
  last_failed : bool;
  stored_results : option stored }.

(** [__init__]; [limit] is the total load and height of the second entry (lines 157-163)
    when the maximum pressure is finite. Initial contact nodes other than None make the
    constructor fail, see [make_opt] in StepModel.v. *)
Definition new_opt (k : hconfig) (load : R) (initial : option (list bool)) (limit : option (R * R * list R)) : hstate :=
  let zero := map (fun _ => 0) (gap k) in
  match limit with
  | Some (l, h, ld) => if use_cache k then
      HState [0; h] [0; l] (if cache_loads k then [zero; ld] else [zero]) load initial false false None
      else HState [0] [0] [zero] load initial false false None
  | None => HState [0] [0] [zero] load initial false false None
  end.

(** [add_to_cache] (lines 370-379). *)
Definition add_to_cache (k : hconfig) (s : hstate) (h load : R) (loads : list R) (failed : bool) : hstate :=
  if use_cache k && negb (rmem h (heights s)) && negb failed then
    let i := bisect_left (heights s) h in
    HState (insert i h (heights s)) (insert i load (total_loads s))
      (if cache_loads k then insert i loads (surf_loads s) else surf_loads s)
      (set_load s) (nodes s) (nodes_set s) (last_failed s) (stored_results s)
  else s.

(** [__call__] (lines 282-333) for influence matrix materials. *)
Definition evaluate (k : hconfig) (s : hstate) (h : R) : hstate * R :=
  if rmem h (heights s) then (s, nth (index_of h (heights s)) (total_loads s) 0 - set_load s)
  else
    let z := map (fun g => - g + h) (gap k) in
    let dom := match nodes_set s, nodes s with
               | true, Some d => d
               | _, _ => map (fun x => Rltb 0 x) z
               end in
    let s0 := HState (heights s) (total_loads s) (surf_loads s) (set_load s) (Some dom) (nodes_set s)
                (last_failed s) (stored_results s) in
    let '(total, full, failed, res) :=
      if existsb (fun b => b) dom then
        let '(loads, failed) := solver k dom (select dom z) in
        (rsum loads * area k, scatter dom loads, failed, Some (InDomain loads dom h))
      else (0, map (fun _ => 0) dom, false, stored_results s) in
    let s1 := HState (heights s) (total_loads s) (surf_loads s) (set_load s) (Some dom) (nodes_set s)
                (last_failed s) res in
    let s2 := add_to_cache k s1 h total full failed in
    (HState (heights s2) (total_loads s2) (surf_loads s2) (set_load s2) (nodes s2) (nodes_set s2) failed
       (stored_results s2), total - set_load s).

(** [__call__] for other materials (lines 337-368): [_results] is [None] until something
    is stored in it, and storing an item in [None] raises. A cached height is answered
    before. [total] is the total load that would have been found. *)
Definition evaluate_basic (s : hstate) (h total : R) : result R :=
  if rmem h (heights s) then Ok (nth (index_of h (heights s)) (total_loads s) 0 - set_load s)
  else match stored_results s with None => Err TypeError | Some _ => Ok (total - set_load s) end.

(** [full_loads[domain] = loads] in the convolution function with the domain [d] (line 725 of
    influence_matrix_utils.py), for loads found in the domain [dom], one for each of its
    nodes: a single load is spread over the nodes of [d], another number must agree. *)
Definition nodes_in (d : list bool) : nat := length (filter (fun b => b) d).
Definition refill (d dom : list bool) (loads : list R) : result (list R) :=
  if Nat.eqb (nodes_in dom) (nodes_in d) then Ok (scatter d loads)
  else if Nat.eqb (nodes_in dom) 1 then Ok (scatter d (repeat (hd 0 loads) (nodes_in d)))
  else Err ValueError.

(** [results] (lines 184-236). The loads go where they were found (line 211), the total
    displacement is that of the convolution function of the contact nodes set last (line 212),
    also if nothing touched then. Without contact nodes nothing is stored; the function for the
    whole surface does not know the argument ignore_domain. *)
Definition read_results (k : hconfig) (s : hstate) : hstate * result full_results :=
  match stored_results s with
  | None => (s, Err TypeError)
  | Some (Final f) => (s, Ok f)
  | Some (InDomain loads dom h) =>
      match match nodes s with Some d => refill d dom loads | None => Err TypeError end with
      | Err e => (s, Err e)
      | Ok moved =>
          let full := scatter dom loads in
          let f := Full full (disp_total k moved) (disp1 k full) (disp2 k full) (map (fun x => Rltb 0 x) full)
                     (rsum loads * area k) h in
          (HState (heights s) (total_loads s) (surf_loads s) (set_load s) (nodes s) (nodes_set s) (last_failed s)
             (Some (Final f)), Ok f)
      end
  end.

(** [clear_cache] (lines 238-246): taking the first and the last element of an empty list
    is not reached, as [cache_max] is False. *)
Definition first_last {A} (l : list A) : list A :=
  match l with [] => [] | x :: l' => [x; last l' x] end.
Definition clear_cache (k : hconfig) (s : hstate) : hstate :=
  if cache_max k then
    HState (first_last (heights s)) (first_last (total_loads s)) (first_last (surf_loads s)) (set_load s)
      (nodes s) (nodes_set s) (last_failed s) (stored_results s)
  else HState [] [] [] (set_load s) (nodes s) (nodes_set s) (last_failed s) (stored_results s).

(** [change_load] (lines 248-258). *)
Definition change_load (s : hstate) (load : R) (n : option (list bool)) : hstate :=
  HState (heights s) (total_loads s) (surf_loads s) load n
    (match n with None => false | Some _ => true end) (last_failed s) None.

(** [get_bounds_from_cache] (lines 260-280). [cubic] is interp1d of the cached loads and
    heights (line 277). Numbers are Python floats, so dividing by zero raises. *)
Definition get_bounds (cubic : list R -> list R -> R -> result R) (s : hstate) (lower upper : R) : result (R * R) :=
  if Nat.ltb (length (heights s)) 2 then Ok (lower, upper)
  else
    let i := bisect_left (total_loads s) (set_load s) in
    let ub := nth i (heights s) upper in
    let lb := match i with O => lower | S j => Rmax (nth j (heights s) 0) lower end in
    if Reqb ub 0 then Err ZeroDivisionError
    else if Rltb (Rabs (ub - lb) / ub) (1 / 10 ^ 10) || Rltb ub lb then
      bind (cubic (total_loads s) (heights s) (set_load s * 2)) (fun u => Ok (lb, u))
    else Ok (lb, ub).

(** Histories of one optimisation function. *)
Inductive hop := Evaluate (h : R) | ChangeLoad (l : R) (n : option (list bool)) | ClearCache | ReadResults.
Definition hstep (k : hconfig) (s : hstate) (o : hop) : hstate :=
  match o with
  | Evaluate h => fst (evaluate k s h)
  | ChangeLoad l n => change_load s l n
  | ClearCache => clear_cache k s
  | ReadResults => fst (read_results k s)
  end.
Definition hrun (k : hconfig) (s : hstate) (os : list hop) : hstate := fold_left (hstep k) os s.

(** ** [solve_normal_loading] (lines 382-439) *)

(** The Loads and Displacements named tuples: components may be missing. *)
Record vec3 := Vec3 { vx : option (list R); vy : option (list R); vz : option (list R) }.
(** [-1 * a] and [a + b] on arrays or [None]. *)
Definition oneg (a : option (list R)) : result (option (list R)) :=
  match a with Some l => Ok (Some (map (fun x => -1 * x) l)) | None => Err TypeError end.
Fixpoint ladd (a b : list R) : list R :=
  match a, b with x :: a', y :: b' => x + y :: ladd a' b' | _, _ => [] end.
Definition oadd (a b : option (list R)) : result (option (list R)) :=
  match a, b with Some x, Some y => Ok (Some (ladd x y)) | _, _ => Err TypeError end.

(** A material is its [displacement_from_surface_loads] with its own options; the grid
    spacing is always that of the first surface (lines 420-436), so it is part of [m1]
    and [m2] here. [rx], [ry], [rz] tell if a component is to be reversed. *)
Definition reverse (rx ry rz : bool) (l : vec3) : result vec3 :=
  if rx || ry || rz then
    bind (if rx then oneg (vx l) else Ok (vx l)) (fun x =>
    bind (if ry then oneg (vy l) else Ok (vy l)) (fun y =>
    bind (if rz then oneg (vz l) else Ok (vz l)) (fun z => Ok (Vec3 x y z))))
  else Ok l.
Definition normal_loading (m1 m2 : vec3 -> result vec3) (rx ry rz : bool) (l : vec3)
  : result (vec3 * vec3 * vec3) :=
  bind (m1 l) (fun d1 =>
  bind (reverse rx ry rz l) (fun l2 =>
  bind (m2 l2) (fun d2 =>
  bind (oadd (vx d1) (vx d2)) (fun x =>
  bind (oadd (vy d1) (vy d2)) (fun y =>
  bind (oadd (vz d1) (vz d2)) (fun z => Ok (Vec3 x y z, d1, d2))))))).
