(** Model of the plots of a surface: [_Surface.show], slippy/surface/Surface_class.py 850-1137, and
    [_AnalyticalSurface.show], 1811-1840, up to the calls of matplotlib and of scipy. Floats are real numbers, surfaces have
    two dimensions, names are ascii. Titles and warnings are left out. *)
From Coq Require Import Reals String Ascii List Bool Arith.
From Verif Require Import Py SurfaceModel ConvModel SpectraModel Flt.
Import ListNotations.
Local Open Scope R_scope.

(** Arrays of complex numbers, and of floats that may be infinite. *)
Record cgrid := CGrid { crows : nat; ccols : nat; cat : nat -> nat -> cplx }.
Record fgrid := FGrid { frows : nat; fcols : nat; fat : nat -> nat -> flt }.
Definition finite (g : grid) : fgrid := FGrid (rows g) (cols g) (fun i j => Fin (at_ g i j)).
(** [np.abs], [np.log] of what is not negative *)
Definition cabs (z : cplx) : R := sqrt (fst z ^ 2 + snd z ^ 2).
Definition np_log (x : R) : flt := if Rltb 0 x then Fin (ln x) else NInf.

(** What is kept on a surface; [unworn] is only set by the setter of the profile (306-308). *)
Record surface := Surface {
  held : option grid;            (* _profile *)
  turned : bool;                 (* invert_surface *)
  unworn : option grid;
  gs : option R;
  shp : option (nat * nat);
  ext : option (R * R);
  fft_kept : option cgrid;
  psd_kept : option cgrid;
  acf_kept : option grid }.      (* the array of the acf *)
Definition with_spectra (s : surface) (f p : option cgrid) (a : option grid) : surface :=
  Surface (held s) (turned s) (unworn s) (gs s) (shp s) (ext s) f p a.
Definition with_profile (s : surface) (g : option grid) : surface :=
  Surface g (turned s) (unworn s) (gs s) (shp s) (ext s) (fft_kept s) (psd_kept s) (acf_kept s).
Definition with_spacing (s : surface) (h : option R) (n : option (nat * nat)) : surface :=
  Surface (held s) (turned s) (unworn s) h n (ext s) (fft_kept s) (psd_kept s) (acf_kept s).

(** lines 290-297; nothing times a number raises. *)
Definition own_profile (s : surface) : result (option grid) :=
  match held s, turned s with
  | None, true => Err TypeError
  | None, false => Ok None
  | Some g, true => Ok (Some (Grid (rows g) (cols g) (fun i j => -1 * at_ g i j)))
  | Some g, false => Ok (Some g)
  end.

(** [get_fft], [get_acf], [get_psd] (lines 478-498, 545-547, 590-594) of the profile [p]; the acf needs four points in each
    direction (a spline is put through it). *)
Definition cgrid_of (g : grid) : cgrid := CGrid (rows g) (cols g) (fft_of g).
Definition find_fft (s : surface) (p : grid) : surface := with_spectra s (Some (cgrid_of p)) (psd_kept s) (acf_kept s).
Definition find_acf (s : surface) (p : grid) : surface * result grid :=
  if Nat.ltb 3 (rows p) && Nat.ltb 3 (cols p)
  then (with_spectra s (fft_kept s) (psd_kept s) (Some (acf_array p)), Ok (acf_array p))
  else (s, Err ValueError).
Definition find_psd (s : surface) (p : grid) : surface * result cgrid :=
  let '(s1, a) := match acf_kept s with Some a => (s, Ok a) | None => find_acf s p end in
  match a with
  | Ok a => (with_spectra s1 (fft_kept s1) (Some (cgrid_of a)) (acf_kept s1), Ok (cgrid_of a))
  | Err e => (s1, Err e)
  end.

(** [np.fft.fftfreq(n, d)] and [np.fft.fftshift] of indices *)
Definition fftfreq (n : nat) (d : R) (k : nat) : R :=
  (if Nat.ltb k ((n + 1) / 2) then INR k else INR k - INR n) / (INR n * d).
Definition shifted (n k : nat) : nat := ((k + (n - n / 2)) mod n)%nat.
Definition cshift (z : cgrid) : cgrid :=
  CGrid (crows z) (ccols z) (fun i j => cat z (shifted (crows z) i) (shifted (ccols z) j)).
Definition gshift (g : grid) : grid :=
  Grid (rows g) (cols g) (fun i j => at_ g (shifted (rows g) i) (shifted (cols g) j)).

(** [max], [min] of coordinates; nothing to compare raises. *)
Definition values_of (n : nat) (f : nat -> R) : list R := map f (seq 0 n).
Definition py_max (l : list R) : result R := match l with [] => Err ValueError | x :: l => Ok (fold_left Rmax l x) end.
Definition py_min (l : list R) : result R := match l with [] => Err ValueError | x :: l => Ok (fold_left Rmin l x) end.

(** What is drawn. Wire frames take every so many lines; images have their first row on top (the default of matplotlib). *)
Inductive drawing {dist : Type} :=
  | DSurface (x y : grid) (z : fgrid)
  | DWire (x y : grid) (z : fgrid) (stride : nat)
  | DImage (z : fgrid) (left right bottom top : R)
  | DHistogram (l : list R) (bins : nat)
  | DScatter (x y : list R) (right top : R)
  | DProbability (l : list R) (d : option dist)
  | DNothing.
Arguments drawing : clear implicits.
(** An axis: three dimensional or not, what was drawn, and the labels on its axes. *)
Record axis {dist : Type} := Axis { three_d : bool; drawn : drawing dist; xlabel : string; ylabel : string; zlabel : option string }.
Arguments axis : clear implicits.

(** [str.lower] *)
Definition lower_char (c : ascii) : ascii :=
  let n := nat_of_ascii c in if Nat.leb 65 n && Nat.leb n 90 then ascii_of_nat (n + 32) else c.
Fixpoint lower (s : string) : string := match s with EmptyString => EmptyString | String c s => String (lower_char c) (lower s) end.
Definition mem (l : list string) (s : string) : bool := existsb (String.eqb s) l.
(** lines 942-943 *)
Definition types2d : list string := ["profile"; "fft2d"; "psd"; "acf"; "apsd"; "unworn_profile"]%string.
Definition types1d : list string := ["histogram"; "fft1d"; "qq"; "hist"]%string.

(** [np.meshgrid(x, y)] *)
Definition mesh_x (n m : nat) (x : nat -> R) : grid := Grid m n (fun j i => x i).
Definition mesh_y (n m : nat) (y : nat -> R) : grid := Grid m n (fun j i => y j).
Definition transpose (z : fgrid) : fgrid := FGrid (fcols z) (frows z) (fun j i => fat z i j).
(** [plot_surface] and [plot_wireframe] need arrays of one shape (lengths of one are not stretched here). *)
Definition same_shape (x : grid) (z : fgrid) : bool := Nat.eqb (rows x) (frows z) && Nat.eqb (cols x) (fcols z).
Definition flatten (n m : nat) (f : nat -> nat -> R) : list R := flat_map (fun i => map (f i) (seq 0 m)) (seq 0 n).

Section Show.
Context {dist : Type}.
Local Notation drawing := (drawing dist).
Local Notation axis := (axis dist).

(** What is to be plotted: heights that may be missing, or complex numbers. *)
Inductive content := Missing | Heights (z : fgrid) | Complex.
(** lines 1003-1057: the values, the coordinates and the labels; the acf and the apsd have coordinates around zero. *)
Definition centred (n : nat) (h : R) : result (nat -> R) :=
  bind (py_max (values_of n (fun i => h * INR i))) (fun m => Ok (fun i => h * INR i - m / 2)).
Definition content_of (prop : string) (s : surface) (p : grid) (h : R) (n m : nat)
  : surface * result (content * (nat -> R) * (nat -> R) * list string) :=
  let line : nat -> R := fun i => h * INR i in
  if String.eqb prop "profile" then (s, Ok (Heights (finite p), line, line, ["x"; "y"; "Height"]%string))
  else if String.eqb prop "unworn_profile" then
    (s, Ok (match unworn s with Some u => Heights (finite u) | None => Missing end, line, line, ["x"; "y"; "Height"]%string))
  else if String.eqb prop "fft2d" then
    let s := match fft_kept s with None => find_fft s p | Some _ => s end in
    match fft_kept s with
    | None => (s, Err TypeError)
    | Some f => (s, Ok (Heights (FGrid (crows f) (ccols f) (fun i j => Fin (cabs (cat (cshift f) i j)))), fftfreq n h, fftfreq m h, ["u"; "v"; "|F(x)|"]%string))
    end
  else if String.eqb prop "psd" then
    let '(s, r) := match psd_kept s with None => find_psd s p | Some f => (s, Ok f) end in
    match r with
    | Err e => (s, Err e)
    | Ok f => (s, Ok (Heights (FGrid (crows f) (ccols f) (fun i j => np_log (cabs (cat (cshift f) i j)))), fftfreq n h, fftfreq m h, ["u"; "v"; "Power/ frequency"]%string))
    end
  else if String.eqb prop "acf" then
    let '(s, r) := match acf_kept s with None => find_acf s p | Some a => (s, Ok a) end in
    match r with
    | Err e => (s, Err e)
    | Ok a => (s, bind (centred n h) (fun x => bind (centred m h) (fun y =>
        Ok (Heights (FGrid (rows a) (cols a) (fun i j => Fin (Rabs (at_ a i j)))), x, y, ["x"; "y"; "Surface auto correlation"]%string))))
    end
  else if String.eqb prop "apsd" then
    let s := match fft_kept s with None => find_fft s p | Some _ => s end in
    (s, bind (centred n h) (fun x => bind (centred m h) (fun y => Ok (Complex, x, y, ["x"; "y"]%string))))
  else (s, Err ValueError).

(** lines 1059-1081. Missing and complex values are not accepted by matplotlib; [ax.plot_surface] is only there on three
    dimensional axes. An unknown type makes an error and drops it. *)
Definition draw2d (three : bool) (prop plot : string) (stride : option nat) (c : content) (x y : nat -> R) (n m : nat) (labels : list string) : result axis :=
  let label k : result string := match nth_error labels k with Some l => Ok l | None => Err IndexError end in
  let finish d zl := bind (label 0%nat) (fun xl => bind (label 1%nat) (fun yl => Ok (Axis _ three d xl yl zl))) in
  let mx := mesh_x n m x in let my := mesh_y n m y in
  if String.eqb plot "surface" then
    if negb three then Err AttributeError else
    match c with
    | Heights z => if same_shape mx (transpose z) then bind (label 2%nat) (fun l => finish (DSurface mx my (transpose z)) (Some l)) else Err ValueError
    | Missing | Complex => Err TypeError
    end
  else if String.eqb plot "mesh" then
    let '(mx, my) := if String.eqb prop "psd" || String.eqb prop "fft2d" then (gshift mx, gshift my) else (mx, my) in
    if negb three then Err AttributeError else
    match c with
    | Heights z =>
        if same_shape mx (transpose z)
        then bind (label 2%nat) (fun l => finish (DWire mx my (transpose z) (match stride with Some (S k) => S k | _ => 25 end)) (Some l))
        else Err ValueError
    | Missing | Complex => Err TypeError
    end
  else if String.eqb plot "default" || String.eqb plot "image" then
    bind (py_min (values_of m y)) (fun l => bind (py_max (values_of m y)) (fun r =>
    bind (py_min (values_of n x)) (fun b => bind (py_max (values_of n x)) (fun t =>
    match c with Heights z => finish (DImage z l r b t) None | Missing | Complex => Err TypeError end))))
  else finish DNothing None.

(** lines 1087-1137. The kept transform is never [False], so it isn't found here; the size of nothing raises. *)
Definition draw1d (three : bool) (prop : string) (d : option dist) (s : surface) (p : grid) (h : R) (n m : nat) : result axis :=
  let heights := flatten (rows p) (cols p) (at_ p) in
  if String.eqb prop "histogram" || String.eqb prop "hist" then Ok (Axis _ three (DHistogram heights 100) "height" "counts" None)
  else if String.eqb prop "fft1d" then
    match fft_kept s with
    | None => Err TypeError
    | Some f =>
        let freq := flatten m n (fun j i => fftfreq n h i + fftfreq m h j) in
        let mags := flatten (crows f) (ccols f) (fun i j => cabs (cat f i j)) in
        if negb (Nat.eqb (length freq) (length mags)) then Err ValueError else
        bind (py_max freq) (fun r => bind (py_max mags) (fun t => Ok (Axis _ three (DScatter freq mags r t) "frequency" "|F(x)|" None)))
    end
  else if String.eqb prop "qq" then Ok (Axis _ three (DProbability heights d) "Theoretical quantities" "Ordered values" None)
  else Err ValueError.

(** A single property (lines 937-940, 976-1137). [ax] is an axis that was given, three dimensional or not. *)
Definition show_one (s : surface) (prop plot : string) (ax : option bool) (d : option dist) (stride : option nat) : surface * result axis :=
  match own_profile s with
  | Err e => (s, Err e)
  | Ok None => (s, Err AttributeError)
  | Ok (Some p) =>
      match gs s with
      | None => (s, Err AttributeError)
      | Some h =>
          let prop := lower prop in
          if negb (mem types2d prop || mem types1d prop) then (s, Err ValueError) else
          match shp s with
          | None => (s, Err TypeError)
          | Some (n, m) =>
              if mem types2d prop then
                let three := match ax with Some b => b | None => negb (String.eqb plot "image" || String.eqb plot "default") end in
                let '(s, r) := content_of prop s p h n m in
                (s, bind r (fun r => let '(c, x, y, labels) := r in draw2d three prop plot stride c x y n m labels))
              else
                let three := match ax with Some b => b | None => false end in
                (s, draw1d three prop d s p h n m)
          end
      end
  end.

(** The types of the plots of a list of properties (lines 952-957). *)
Inductive plots := OneType (t : string) | Types (l : list string).
Definition types_for (n : nat) (t : plots) : list string :=
  match t with
  | OneType t => repeat t n
  | Types l => if Nat.ltb (length l) n then (l ++ repeat "default"%string (n - length l))%list else l
  end.
(** lines 961-968; one less than nothing is the last of the list. *)
Definition n_cols (n : nat) : nat := if Nat.ltb n 5 then nth ((n + 3) mod 4) [1; 2; 3; 2]%nat 0%nat else 3.
Definition n_rows (n : nat) : nat := ((n + 2) / 3)%nat.
Definition first_number (n : nat) : nat := (100 * n_rows n + 10 * n_cols n + 1)%nat.
(** [fig.add_subplot(number)]: three digits, for rows, columns and the place, which counts from one along the rows. *)
Definition place (number : nat) : result (nat * nat * nat) :=
  let r := (number / 100)%nat in let c := (number / 10 mod 10)%nat in let k := (number mod 10)%nat in
  if Nat.leb 100 number && Nat.leb number 999 && Nat.leb 1 k && Nat.leb k (r * c) then Ok (r, c, k) else Err ValueError.

(** lines 969-975: [show] of one plot after the other; [one] shows a single property on an axis. *)
Fixpoint show_each (one : surface -> string -> string -> bool -> surface * result axis) (s : surface) (props : list string) (types : list string) (number : nat)
  : surface * result (list ((nat * nat * nat) * axis)) :=
  match props with
  | [] => (s, Ok [])
  | prop :: props =>
      match types with
      | [] => (s, Err IndexError)
      | t :: types =>
          let three := mem types2d (lower prop) && negb (String.eqb t "image"%string || String.eqb t "default"%string) in
          match place number with
          | Err e => (s, Err e)
          | Ok pl =>
              let '(s, a) := one s prop t three in
              match a with
              | Err e => (s, Err e)
              | Ok a =>
                  let '(s, l) := show_each one s props types (S number) in
                  (s, bind l (fun l => Ok ((pl, a) :: l)))
              end
          end
      end
  end.
(** [show] of a list (lines 937-975); distribution and stride are not handed on. *)
Definition show_all (s : surface) (props : list string) (t : plots) : surface * result (list ((nat * nat * nat) * axis)) :=
  match own_profile s with
  | Err e => (s, Err e)
  | Ok None => (s, Err AttributeError)
  | Ok (Some _) =>
      match gs s with
      | None => (s, Err AttributeError)
      | Some _ => show_each (fun s prop t three => show_one s prop t (Some three) None None) s props (types_for (length props) t) (first_number (length props))
      end
  end.

(** ** Analytical surfaces that are not discrete (lines 1811-1840) *)
(** The points of [get_points_from_extent()] (1157-1166) of a surface with this spacing and shape. *)
Definition heights_on (height : R -> R -> R) (h : R) (n m : nat) : grid := Grid n m (fun i j => height (h * INR i) (h * INR j)).
(** [get_points_from_extent(extent, grid_spacing)] (1169-1171): another surface, whose extent is set after its spacing, which
    sets the spacing again (lines 240-245). *)
Definition dummy (e : R * R) (h : R) : result (R * nat * nat) :=
  if Reqb h 0 then Err ZeroDivisionError else
  let n := npts (fst e) h in let m := npts (snd e) h in
  if Nat.eqb n 0 then Err ZeroDivisionError else Ok (fst e / INR n, n, m).
(** What is done before and after [super().show]. *)
Definition around {A : Type} (height : R -> R -> R) (n_pts : nat) (inner : surface -> surface * result A) (s : surface) : surface * result A :=
  let old := (fft_kept s, psd_kept s, acf_kept s) in
  let restore (s : surface) := with_spectra (with_profile s None) (fst (fst old)) (snd (fst old)) (snd old) in
  match gs s, shp s with
  | Some h, Some (n, m) =>
      match ext s with
      | None => (s, Err AttributeError)
      | Some _ => let '(s1, r) := inner (with_profile s (Some (heights_on height h n m))) in (restore s1, r)
      end
  | _, _ =>
      match ext s with
      | Some e =>
          if Nat.eqb n_pts 0 then (s, Err ZeroDivisionError) else
          let h := Rmin (fst e) (snd e) / INR n_pts in
          match dummy e h with
          | Err er => (s, Err er)
          | Ok (h', n, m) =>
              let s1 := with_spacing s (Some h) (Some (npts (fst e) h, npts (snd e) h)) in
              let '(s2, r) := inner (with_profile s1 (Some (heights_on height h' n m))) in
              (with_spacing (restore s2) None None, r)
          end
      | None => (s, Err AttributeError)
      end
  end.
Definition show_analytic (height : R -> R -> R) (n_pts : nat) (s : surface) (prop plot : string) (ax : option bool) (d : option dist) (stride : option nat) : surface * result axis :=
  around height n_pts (fun s => show_one s prop plot ax d stride) s.
(** The plots of a list call the method of the analytical surface again, with a hundred points. *)
Definition show_all_analytic (height : R -> R -> R) (n_pts : nat) (s : surface) (props : list string) (t : plots) : surface * result (list ((nat * nat * nat) * axis)) :=
  around height n_pts (fun s =>
    show_each (fun s prop t three => show_analytic height 100 s prop t (Some three) None None) s props (types_for (length props) t) (first_number (length props))) s.
End Show.
