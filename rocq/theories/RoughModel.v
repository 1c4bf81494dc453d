(** Model of slippy/surface/roughness_funcs.py and of the aliases in slippy/surface/Surface_class.py 596-696.
    Heights are the numbers of [Flt]. External code is given as arguments: [np.linalg.lstsq] and the Bessel
    function [scipy.special.j1]. Sums, sorting, convolution, correlation and the discrete Fourier transform are
    written out. Warnings are not modelled; grid spacings and cut off frequencies are finite. *)
From Coq Require Import Reals List Bool Arith ZArith String Ascii.
From Verif Require Import Py SurfaceModel Flt.
Import ListNotations.
Local Open Scope R_scope.

(** A two dimensional array: whether it holds integers, its shape and its entries. *)
Record arr := Arr { whole : bool; nrows : nat; ncols : nat; h_at : nat -> nat -> flt }.
(** Indices in memory order. *)
Definition points (r c : nat) : list (nat * nat) := list_prod (seq 0 r) (seq 0 c).
Definition entry (p : arr) (ij : nat * nat) : flt := h_at p (fst ij) (snd ij).
Definition bmask := nat -> nat -> bool.
Definition keep (m : option bmask) (ij : nat * nat) : bool :=
  match m with None => true | Some f => f (fst ij) (snd ij) end.
(** [p[mask]], [p.flatten()] without a mask. *)
Definition entries (p : arr) (m : option bmask) : list flt :=
  map (entry p) (filter (keep m) (points (nrows p) (ncols p))).
Definition inverse (m : option bmask) : option bmask :=
  match m with None => None | Some f => Some (fun i j => negb (f i j)) end.

Definition feqb (a b : flt) : bool :=
  match a, b with Fin x, Fin y => Reqb x y | PInf, PInf | NInf, NInf => true | _, _ => false end.

(** The mask argument: nothing, a float, an integer or an array. *)
Inductive mask_arg := NoMask | FloatMask (x : flt) | IntMask (z : Z) | ArrMask (r c : nat) (m : bmask).

(** roughness_funcs.py 179-191, 423-435, 522-535, 669-681: the mask of all functions but [subtract_polynomial].
    [~profile == mask] is [(~profile) == mask]: an error for floats, minus one minus the entry for integers. *)
Definition norm_mask (p : arr) (m : mask_arg) : result (option bmask) :=
  match m with
  | NoMask => Ok None
  | FloatMask x =>
      if is_nan x then Ok (Some (fun i j => negb (is_nan (h_at p i j))))
      else if whole p then Ok (Some (fun i j => feqb (fsub (Fin (- 1)) (h_at p i j)) x))
      else Err TypeError
  | IntMask _ => Err TypeError
  | ArrMask r c f => if Nat.eqb r (nrows p) && Nat.eqb c (ncols p) then Ok (Some f) else Err TypeError
  end.
(** roughness_funcs.py 826-838: the mask of [subtract_polynomial]. *)
Definition poly_mask (p : arr) (m : mask_arg) : result (option bmask) :=
  match m with
  | NoMask => Ok None
  | FloatMask x =>
      if is_nan x then Ok (Some (fun i j => negb (is_nan (h_at p i j))))
      else Ok (Some (fun i j => negb (feqb (h_at p i j) x)))
  | IntMask z => Ok (Some (fun i j => negb (feqb (h_at p i j) (Fin (IZR z)))))
  | ArrMask r c f => if Nat.eqb r (nrows p) && Nat.eqb c (ncols p) then Ok (Some f) else Err TypeError
  end.

Definition fsum (l : list flt) : flt := fold_right fadd (Fin 0) l.
Fixpoint fpow (x : flt) (n : nat) : flt := match n with O => Fin 1 | S m => fmul x (fpow x m) end.
Definition fabs (x : flt) : flt :=
  match x with Fin a => Fin (Rabs a) | PInf | NInf => PInf | NaN => NaN end.
(** [np.mean] *)
Definition fmean (l : list flt) : flt := fdiv (fsum l) (Fin (INR (List.length l))).
(** The built in [min] and [max] of a one dimensional array: an entry replaces the candidate when it is smaller
    (larger); the empty sequence is an error. *)
Definition pymin (l : list flt) : result flt :=
  match l with [] => Err ValueError | x :: t => Ok (fold_left (fun a b => if fltb b a then b else a) t x) end.
Definition pymax (l : list flt) : result flt :=
  match l with [] => Err ValueError | x :: t => Ok (fold_left (fun a b => if fltb a b then b else a) t x) end.
(** [np.min]: passes on not a number. *)
Definition npmin (l : list flt) : result flt :=
  match l with [] => Err ValueError | x :: t => Ok (fold_left fmin t x) end.
(** [np.sort] of one dimension: not a number comes last. *)
Definition before (a b : flt) : bool := fleb a b || is_nan b.
Fixpoint insert_sorted (x : flt) (l : list flt) : list flt :=
  match l with [] => [x] | y :: t => if before x y then x :: l else y :: insert_sorted x t end.
Definition fsort (l : list flt) : list flt := fold_right insert_sorted [] l.

(** roughness_funcs.py 852-856: the exponents in the order of [itertools.product] and the row of the system for one
    point. [x] is the column and [y] the row of the point (lines 821-823). *)
Definition exponents (order : nat) : list (nat * nat) := list_prod (seq 0 (S order)) (seq 0 (S order)).
Definition basis (order : nat) (ij : nat * nat) : list R :=
  map (fun e => INR (snd ij) ^ fst e * INR (fst ij) ^ snd e) (exponents order).
(** roughness_funcs.py 870-875: the polynomial at one point. *)
Definition poly_value (coefs : list flt) (b : list R) : flt :=
  fold_left (fun s ab => fadd s (fmul (fst ab) (Fin (snd ab)))) (combine coefs b) (Fin 0).
Definition not_finite (x : flt) : bool := match x with Fin _ => false | _ => true end.

(** What is not written in Python: [np.linalg.lstsq] (the number of columns, the matrix by rows and the right hand
    side; an error is [LinAlgError]) and [scipy.special.j1]. *)
Record world := World { lstsq : nat -> list (list R) -> list flt -> option (list flt); j1 : R -> R }.

Section WithWorld.
Variable w : world.

(** roughness_funcs.py 820-880. Adding a float to the integer array made by [np.zeros_like] is a [TypeError]. *)
Definition subtract_polynomial (p : arr) (order : nat) (m : mask_arg) : result (arr * list flt) :=
  bind (poly_mask p m) (fun mk =>
  let inside := filter (keep mk) (points (nrows p) (ncols p)) in
  match lstsq w (S order * S order) (map (basis order) inside) (map (entry p) inside) with
  | None => Err ValueError
  | Some coefs =>
      if existsb not_finite coefs then Err ValueError
      else if whole p && negb (Nat.eqb (List.length coefs) 0) then Err TypeError
      else Ok (Arr (whole p) (nrows p) (ncols p)
                 (fun i j => if keep mk (i, j) then fsub (h_at p i j) (poly_value coefs (basis order (i, j))) else h_at p i j),
               coefs)
  end).

(** roughness_funcs.py 740-756. The mesh has the shape (columns, rows) of the profile; its entry (a, b) has the
    distance of (a + 1, b + 1) from the origin. *)
Definition kernel (k : R) (a b : nat) : R :=
  let d := sqrt (INR (b + 1) ^ 2 + INR (a + 1) ^ 2) in k * j1 w (2 * PI * k * d) / d.
Definition shifted (p : arr) (i j : nat) (di dj a b : nat) : flt :=
  if Nat.leb a (i + di) && Nat.ltb (i + di - a) (nrows p) && Nat.leb b (j + dj) && Nat.ltb (j + dj - b) (ncols p)
  then h_at p (i + di - a) (j + dj - b) else Fin 0.
Definition low_pass (p : arr) (cut : R) (gs : option R) : result arr :=
  match gs with
  | None => Err ValueError
  | Some g =>
      if Reqb g 0 then Err ZeroDivisionError else
      let ws := 2 * PI / g in
      let wc := cut * 2 * PI in
      let k := wc / ws in
      Ok (Arr false (nrows p) (ncols p) (fun i j =>
        fsum (map (fun ab => fmul (shifted p i j ((ncols p - 1) / 2) ((nrows p - 1) / 2) (fst ab) (snd ab))
                                  (Fin (kernel k (fst ab) (snd ab))))
                  (points (ncols p) (nrows p)))))
  end.

(** A boolean array. *)
Record barr := BArr { b_rows : nat; b_cols : nat; b_at : nat -> nat -> bool }.
(** roughness_funcs.py 690-696: the neighbours of an interior point. *)
Definition neighbours (four : bool) (i j : nat) : list (nat * nat) :=
  [(i - 1, j); (i + 1, j); (i, j - 1); (i, j + 1)]%nat ++
  (if four then [] else [(i - 1, j - 1); (i - 1, j + 1); (i + 1, j - 1); (i + 1, j + 1)]%nat).
(** roughness_funcs.py 666-701. Gives the array afterwards, too: [profile[mask] = nan] is done in place (an error
    for integers). The interior has the shape minus two (at least zero), the padding adds two. *)
Definition summits_of (p f : arr) (four : bool) : barr :=
  BArr (nrows p - 2 + 2) (ncols p - 2 + 2)
    (fun i j => Nat.leb 1 i && Nat.ltb i (nrows p - 1) && Nat.leb 1 j && Nat.ltb j (ncols p - 1) &&
                forallb (fun q => fltb (entry f q) (h_at f i j)) (neighbours four i j)).
Definition blank (p : arr) (m : bmask) : arr :=
  Arr (whole p) (nrows p) (ncols p) (fun i j => if m i j then NaN else h_at p i j).
Definition find_summits (p : arr) (gs : option R) (m : mask_arg) (four : bool) (cut : option R) : arr * result barr :=
  match norm_mask p m with
  | Err e => (p, Err e)
  | Ok mk =>
      if (match mk with Some _ => whole p | None => false end) then (p, Err ValueError) else
      let p' := match mk with Some f => blank p f | None => p end in
      match (match cut with Some c => low_pass p' c gs | None => Ok p' end) with
      | Err e => (p', Err e)
      | Ok f => (p', Ok (summits_of p' f four))
      end
  end.

Definition marked (s : barr) : list (nat * nat) :=
  filter (fun ij => b_at s (fst ij) (snd ij)) (points (b_rows s) (b_cols s)).
(** roughness_funcs.py 612-624 with given summits. [None ** 2] is a [TypeError]. Indices out of the profile cannot
    occur for summits found in it. *)
Definition curvature (p : arr) (gs2 : R) (ij : nat * nat) : flt :=
  let (i, j) := ij in
  fdiv (fmul (Fin (- (1 / 2)))
         (fsub (fadd (fadd (fadd (h_at p (i - 1) j) (h_at p (i + 1) j)) (h_at p i (j - 1))) (h_at p i (j + 1)))
               (fmul (Fin 4) (h_at p i j))))
       (Fin gs2).
Definition summit_curvatures (p : arr) (s : barr) (gs : option R) : result (list flt) :=
  match gs with None => Err TypeError | Some g => Ok (map (curvature p (g * g)) (marked s)) end.

(** Values of the parameters: a number, an array, a curve (heights and ratios) or a list. *)
Inductive rval := VNum (x : flt) | VVec (l : list flt) | VCurve (hs : list (list flt)) (ratios : list flt) | VList (l : list rval).

(** roughness_funcs.py 510-556 for an array; [mask] as normalised. The entries which are used are those outside of
    the mask. [material] is the sum of all differences times the array which is one above the height. *)
Definition mat_vr (h : flt) (p : arr) (void : bool) (mk : option bmask) (ratio : bool) (gs : option R) : result (list flt) :=
  let no_gs := match gs with None => true | Some g => Reqb g 0 end in
  if no_gs && negb ratio then Err ValueError else
  let l := entries p (inverse mk) in
  bind (pymax l) (fun max_h =>
  bind (pymin l) (fun min_h =>
  let n := Fin (INR (List.length l)) in
  let total := fmul n (fsub max_h min_h) in
  let max_m := fsum (map (fun x => fsub x min_h) l) in
  let material := map (fun x => fmul (fsum (map (fun y => fsub y h) l)) (Fin (if fltb h x then 1 else 0))) l in
  let cube := match gs with Some g => Fin (g * g * g) | None => NaN end in
  Ok (if void then
        map (fun mat =>
          let void_out := fsub (fmul (fsub max_h h) n) mat in
          let v := fsub (fsub total max_m) void_out in
          if ratio then fdiv v (fsub total max_m) else fmul v cube) material
      else map (fun mat => if ratio then fdiv mat max_m else fmul mat cube) material))).
Definition get_mat_vr (h : flt) (p : arr) (void : bool) (m : mask_arg) (ratio : bool) (gs : option R) : result (list flt) :=
  if (match gs with None => true | Some g => Reqb g 0 end) && negb ratio then Err ValueError
  else bind (norm_mask p m) (fun mk => mat_vr h p void mk ratio gs).

(** Surface_class.py 629-639: [own] is the mask of the surface; the grid spacing is not passed on. *)
Definition surface_mat_vr (h : flt) (p : arr) (own : mask_arg) (void : bool) (m : mask_arg) (ratio : bool) : result (list flt) :=
  get_mat_vr h p void (match m with NoMask => own | _ => m end) ratio None.

(** Parameter names are not case sensitive ([str.lower] of the letters A to Z). *)
Definition lower_char (c : ascii) : ascii :=
  let n := nat_of_ascii c in if Nat.leb 65 n && Nat.leb n 90 then ascii_of_nat (n + 32) else c.
Fixpoint lower (s : string) : string :=
  match s with EmptyString => EmptyString | String c t => String (lower_char c) (lower t) end.
Definition is_in (s : string) (l : list string) : bool := existsb (String.eqb s) l.

(** ACF_class.py 117-152 with [grid_spacing=1]: [scipy.signal.correlate(p, p, 'same') / (x * y)]. The zero lag is at
    (rows / 2, columns / 2). The spline made of it needs four points in each direction. *)
Definition lagged (p : arr) (i j a b : nat) : flt :=
  if Nat.leb i (a + nrows p / 2) && Nat.ltb (a + nrows p / 2 - i) (nrows p) &&
     Nat.leb j (b + ncols p / 2) && Nat.ltb (b + ncols p / 2 - j) (ncols p)
  then h_at p (a + nrows p / 2 - i) (b + ncols p / 2 - j) else Fin 0.
Definition acf_at (p : arr) (i j : nat) : flt :=
  fdiv (fsum (map (fun ab => fmul (entry p ab) (lagged p i j (fst ab) (snd ab))) (points (nrows p) (ncols p))))
       (Fin (INR (nrows p * ncols p))).
Definition acf (p : arr) : result arr :=
  if Nat.ltb (nrows p) 4 || Nat.ltb (ncols p) 4 then Err ValueError
  else Ok (Arr false (nrows p) (ncols p) (acf_at p)).
(** roughness_funcs.py 329-332 and 361-367: the distances have the shape (columns, rows), so the index fails
    when this is not the shape of the correlation. The entry (a, b) belongs to (b - rows / 2, a - columns / 2). *)
Definition centre_distance (p : arr) (g : R) (ab : nat * nat) : R :=
  sqrt ((g * (INR (snd ab) - INR (nrows p) / 2)) ^ 2 + (g * (INR (fst ab) - INR (ncols p) / 2)) ^ 2).
Definition distances (p : arr) (g : R) (sel : flt -> bool) : result (list flt) :=
  bind (acf p) (fun a =>
  if Nat.eqb (nrows p) (ncols p) then
    Ok (map (fun ab => Fin (centre_distance p g ab)) (filter (fun ab => sel (entry a ab)) (points (nrows p) (ncols p))))
  else Err IndexError).

(** roughness_funcs.py 338-350: the discrete Fourier transform of the heights, the first of the largest powers, and
    the angle of its indices. The quotient by zero is infinite, 0 / 0 is not a number. *)
Definition fourier (f : R -> R) (p : arr) (u v : nat) : flt :=
  fsum (map (fun ab => fmul (entry p ab)
               (Fin (f (2 * PI * (INR (u * fst ab) / INR (nrows p) + INR (v * snd ab) / INR (ncols p))))))
            (points (nrows p) (ncols p))).
Definition power (p : arr) (area : R) (u v : nat) : flt :=
  fdiv (fadd (fmul (fourier cos p u v) (fourier cos p u v)) (fmul (fourier sin p u v) (fourier sin p u v))) (Fin area).
Fixpoint argmax (f : nat * nat -> flt) (best : nat * nat) (l : list (nat * nat)) : nat * nat :=
  match l with
  | [] => best
  | q :: t => if is_nan (f best) then best
              else argmax f (if is_nan (f q) || fltb (f best) (f q) then q else best) t
  end.
Definition texture_direction (p : arr) (area : R) : result flt :=
  match points (nrows p) (ncols p) with
  | [] => Err ValueError
  | q :: t =>
      let (i, j) := argmax (fun uv => power p area (fst uv) (snd uv)) q t in
      Ok (match fdiv (Fin (INR i)) (Fin (INR j)) with
          | Fin x => if Rltb (atan x) (PI / 2) then Fin (- atan x) else Fin (PI - atan x)
          | PInf => Fin (PI - PI / 2)
          | NInf => Fin (PI / 2)
          | NaN => NaN
          end)
  end.

(** roughness_funcs.py 287-294: the four sides of a cell with its corner (x, y). *)
Definition cell_area (p : arr) (gs2 : R) (xy : nat * nat) : flt :=
  let (x, y) := xy in
  let side a b := fsqrt (fadd (Fin gs2) (fpow (fsub a b) 2)) in
  fmul (Fin (1 / 4))
    (fmul (fadd (side (h_at p x y) (h_at p x (y + 1))) (side (h_at p (x + 1) (y + 1)) (h_at p (x + 1) y)))
          (fadd (side (h_at p x y) (h_at p (x + 1) y)) (side (h_at p x (y + 1)) (h_at p (x + 1) (y + 1)))))%nat.

(** [np.sort(eta_masked)[index]]: of one dimension an entry, of two dimensions a sorted row. *)
Definition sorted_at (p : arr) (mk : option bmask) (index : nat) : result (list flt) :=
  match mk with
  | Some _ => match nth_error (fsort (entries p mk)) index with Some x => Ok [x] | None => Err IndexError end
  | None => if Nat.ltb index (nrows p) then Ok (fsort (map (h_at p index) (seq 0 (ncols p)))) else Err IndexError
  end.
(** A result which is a number for a mask and an array without. *)
Definition shape_like (mk : option bmask) (l : list flt) : rval :=
  match mk, l with Some _, [x] => VNum x | _, _ => VVec l end.
(** Broadcasting of two one dimensional arrays. *)
Definition broadcast (f : flt -> flt -> flt) (a b : list flt) : result (list flt) :=
  if Nat.eqb (List.length a) (List.length b) then Ok (map (fun ab => f (fst ab) (snd ab)) (combine a b))
  else match a, b with
       | [x], _ => Ok (map (f x) b)
       | _, [y] => Ok (map (fun x => f x y) a)
       | _, _ => Err ValueError
       end.

Definition root_mean_square (l : list flt) : flt := fsqrt (fmean (map (fun x => fpow x 2) l)).
(** [np.linspace(a, b, 100)] *)
Definition linspace (a b : flt) : list flt :=
  map (fun k => fadd a (fmul (Fin (INR k / 99)) (fsub b a))) (seq 0 100).
Definition count_below (l : list flt) (h : flt) : nat := List.length (filter (fun x => fltb x h) l).

Local Open Scope string_scope.
(** roughness_funcs.py 207-211: the divisions of arrays by the projected area. *)
Definition over_area (area : option R) (sq : flt) (l : list flt) : result rval :=
  match area with
  | None => Err TypeError
  | Some a => Ok (VVec (map (fun x => fdiv (fdiv x (Fin a)) sq) l))
  end.

(** roughness_funcs.py 228-372: one parameter of the flattened surface [eta] with a normalised mask. Gives the
    array afterwards, too. *)
Definition one (eta : arr) (mk : option bmask) (gs : option R) (cut : option R) (four : bool) (parameter : string)
  : arr * result rval :=
  let name := lower parameter in
  if is_in name ["scc"; "sdr"; "sal"] && (match gs with None => true | Some _ => false end) then (eta, Err ValueError)
  else if is_in name ["sdr"; "str"; "sal"] && (match mk with None => false | Some _ => true end) then (eta, Err ValueError)
  else
  let arg := match mk with None => NoMask | Some f => ArrMask (nrows eta) (ncols eta) f end in
  let l := entries eta mk in
  let n := List.length l in
  let area_m := match gs with None => None | Some g => Some (INR n * (g * g)) end in
  let area_t := match gs with None => None | Some g => Some (INR (nrows eta * ncols eta) * (g * g)) end in
  let sq := root_mean_square l in
  if name =? "sq" then (eta, Ok (VNum sq))
  else if name =? "sa" then (eta, Ok (VNum (fmean (map fabs l))))
  else if name =? "ssk" then (eta, Ok (VNum (fdiv (fmean (map (fun x => fpow x 3) l)) (fpow sq 3))))
  else if name =? "sku" then (eta, Ok (VNum (fdiv (fmean (map (fun x => fpow x 4) l)) (fpow sq 4))))
  else if name =? "sv" then (eta, bind (npmin l) (fun x => Ok (VNum x)))
  else if is_in name ["sds"; "sz"; "ssc"] then
    let (eta', r) := find_summits eta gs arg four cut in
    (eta', bind r (fun s =>
      if name =? "sds" then Ok (VNum (fdiv (Fin (INR (List.length (marked s)))) (Fin (INR n))))
      else if name =? "sz" then
        bind (snd (find_summits (Arr (whole eta') (nrows eta') (ncols eta') (fun i j => fmul (Fin (- 1)) (h_at eta' i j)))
                                gs arg four cut)) (fun v =>
        if Nat.eqb (b_rows s) (nrows eta) && Nat.eqb (b_cols s) (ncols eta) then
          let hs := fsort (map (entry eta') (marked s)) in
          let hv := fsort (map (entry eta') (marked v)) in
          bind (broadcast fadd (map fabs (firstn 5 hv))
                  (map (fun x => fdiv (fabs x) (Fin 5)) (skipn (List.length hs - 5) hs)))
            (fun out => Ok (VVec out))
        else Err IndexError)
      else bind (summit_curvatures eta' s gs) (fun c => Ok (VNum (fmean c)))))
  else if name =? "sdr" then
    (eta, match gs, area_t with
          | Some g, Some a =>
              match points (nrows eta - 1) (ncols eta - 1) with
              | [] => Err ZeroDivisionError
              | cells => let i_area := fsum (map (cell_area eta (g * g)) cells) in
                         Ok (VNum (fdiv (fsub i_area (Fin a)) i_area))
              end
          | _, _ => Err ValueError
          end)
  else if name =? "stp" then
    (eta, match mk with
          | None =>
              (* [min] compares the rows: without a mask only one row or one column works *)
              if Nat.eqb (nrows eta) 0 then Err ValueError
              else if Nat.eqb (nrows eta) 1 then
                match area_m with
                | None => Err TypeError
                | Some a => let row := map (fun x => fdiv x sq) l in
                            Ok (VCurve (repeat row 100)
                                  (repeat (fdiv (Fin (INR (List.length (filter (fun xh => fltb (fst xh) (snd xh)) (combine l row))))) (Fin a)) 100))
                end
              else if Nat.ltb 1 (ncols eta) then Err ValueError
              else bind (pymin (map (fun x => fdiv x sq) l)) (fun lo =>
                   bind (pymax (map (fun x => fdiv x sq) l)) (fun hi =>
                   match area_m with
                   | None => Err TypeError
                   | Some a => Ok (VCurve (map (fun h => [h]) (linspace lo hi))
                                     (map (fun h => fdiv (Fin (INR (count_below l h))) (Fin a)) (linspace lo hi)))
                   end))
          | Some _ =>
              bind (pymin (map (fun x => fdiv x sq) l)) (fun lo =>
              bind (pymax (map (fun x => fdiv x sq) l)) (fun hi =>
              match area_m with
              | None => Err TypeError
              | Some a => Ok (VCurve (map (fun h => [h]) (linspace lo hi))
                                (map (fun h => fdiv (Fin (INR (count_below l h))) (Fin a)) (linspace lo hi)))
              end))
          end)
  else if name =? "sbi" then
    (eta, bind (sorted_at eta mk (n / 20)) (fun x => Ok (shape_like mk (map (fun y => fdiv sq y) x))))
  else if name =? "sci" then
    (* [int(eta_masked * 0.8)] works for one entry only; an infinite one is an [OverflowError], here [ValueError] *)
    (eta, bind (sorted_at eta mk (n / 20)) (fun h005 =>
          match l with
          | [Fin x] =>
              let z := trunc (x * (4 / 5)) in
              if Z.eqb z 0 || Z.eqb z (-1) then
                bind (sorted_at eta mk 0) (fun h08 =>
                bind (mat_vr (hd NaN h005) eta true mk true None) (fun a =>
                bind (mat_vr (hd NaN h08) eta true mk true None) (fun b =>
                bind (broadcast fsub a b) (fun d => over_area area_m sq d))))
              else Err IndexError
          | [_] => Err ValueError
          | _ => Err TypeError
          end))
  else if name =? "svi" then
    (* a row of more than one entry is never reached: see [sorted_at] *)
    (eta, bind (sorted_at eta mk (4 * n / 5)) (fun h08 =>
          bind (mat_vr (hd NaN h08) eta true mk true None) (over_area area_m sq)))
  else if name =? "str" then
    (eta, bind (distances eta 1 (fun x => fltb x (Fin (1 / 5)))) (fun near =>
          bind (pymin near) (fun a =>
          bind (distances eta 1 (fun x => fltb (Fin (1 / 5)) x)) (fun far =>
          bind (pymax far) (fun b => Ok (VNum (fdiv (fsub a (Fin (1 / 2))) (fadd b (Fin (1 / 2))))))))))
  else if name =? "std" then
    (eta, match area_t with
          | None => Err TypeError
          | Some a => bind (texture_direction eta a) (fun x => Ok (VNum x))
          end)
  else if name =? "sal" then
    (eta, bind (distances eta (match gs with Some g => g | None => 1 end) (fun x => fltb x (Fin (1 / 5)))) (fun d =>
          bind (pymin d) (fun x => Ok (VNum x))))
  else (eta, Err ValueError).

(** The parameter argument: a string, a sequence or something else. *)
Inductive pname := Name (s : string) | Names (l : list pname) | NoName.

(** roughness_funcs.py 208-226: the parameters of a sequence are found one after the other, on the same array. *)
Fixpoint many (eta : arr) (mk : option bmask) (gs : option R) (cut : option R) (four : bool) (name : pname)
  : arr * result rval :=
  match name with
  | Name s => one eta mk gs cut four s
  | NoName => (eta, Err ValueError)
  | Names l =>
      let '(a, r) := (fix go (a : arr) (l : list pname) : arr * result (list rval) :=
         match l with
         | [] => (a, Ok [])
         | x :: t => match many a mk gs cut four x with
                     | (a', Ok v) => let (a'', r) := go a' t in (a'', bind r (fun vs => Ok (v :: vs)))
                     | (a', Err e) => (a', Err e)
                     end
         end) eta l in
      (a, bind r (fun vs => Ok (VList vs)))
  end.

(** The profile argument: an array or a surface with its profile and grid spacing. *)
Inductive source := OfArray (a : arr) | OfSurface (a : arr) (gs : option R).
(** roughness_funcs.py 18-30 *)
Definition check_surface (s : source) (gs : option R) : arr * option R :=
  match s with
  | OfArray a => (a, gs)
  | OfSurface a g => (a, match gs with None => g | Some _ => gs end)
  end.

(** roughness_funcs.py 174-226. Gives the caller's array (or the profile of the surface) afterwards, too. *)
Definition roughness (s : source) (name : pname) (gs : option R) (m : mask_arg) (curved no_flattening : bool)
  (cut : option R) (four : bool) : arr * result rval :=
  let (p, gs) := check_surface s gs in
  match norm_mask p m with
  | Err e => (p, Err e)
  | Ok mk =>
      let arg := match mk with None => NoMask | Some f => ArrMask (nrows p) (ncols p) f end in
      if no_flattening then many p mk gs cut four name
      else match subtract_polynomial p (if curved then 2 else 1) arg with
           | Err e => (p, Err e)
           | Ok (eta, _) => (p, snd (many eta mk gs cut four name))
           end
  end.
End WithWorld.
